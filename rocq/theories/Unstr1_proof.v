From Verif Require Import RealAux Perc_model Perc_spec Perc_proof Surface_model Surface_spec Surface_proof
  Volume_model Volume_spec Volume_proof Ring_proof UVol_proof UVol2_proof UVol3_proof
  SMerge_model SMerge_spec SMerge_proof Groups_model Groups_spec Groups_proof Groups2_proof
  Stack_model Stack_spec Cut_proof Gen_proof Stack_proof Stack2_proof Stack3_proof Stack4_proof
  Lines_spec Final_model Final_spec Final1_proof Unstr_model Unstr_spec.
From Coq Require Import Lra Permutation.
Open Scope nat_scope.

(* ---- renaming ---- *)
Lemma rename_rename f h c : rename f (rename h c) = rename (fun i => f (h i)) c.
Proof.
  destruct c as [ty ids|fs]; cbn [rename]; f_equal; rewrite map_map; auto.
  apply map_ext. intros l. apply map_map.
Qed.
Lemma rename_id c : rename (fun i => 0 + i) c = c.
Proof.
  destruct c as [ty ids|fs]; cbn [rename]; f_equal.
  - apply map_id.
  - rewrite <- (map_id fs) at 2. apply map_ext. intros l. apply map_id.
Qed.
Lemma rename_In f c x : In x (vcell_ids c) -> In (f x) (vcell_ids (rename f c)).
Proof.
  destruct c as [ty ids|fs]; cbn [rename vcell_ids].
  - apply in_map.
  - rewrite !in_concat. intros (l & Hl & Hx). exists (map f l). split; apply in_map; auto.
Qed.

Lemma extruded_ids invert np l base cell v h : extruded invert np l base cell -> In v (snd base) -> h <= 1 ->
  In (v + (l + h) * np) (vcell_ids cell).
Proof.
  intros He Hv Hh.
  assert (HL : forall k ids, In v ids -> In (v + k * np) (lift k np ids)).
  { intros k ids H. unfold lift. apply (in_map (fun v => v + k * np)). auto. }
  assert (Hk : l + h = l \/ l + h = S l) by lia.
  destruct He as [ids|ids|a b c d|ids ring Hring]; cbn [snd vcell_ids] in *.
  1,2: apply in_app_iff; destruct Hk as [ -> | -> ]; auto.
  - assert (In v [a; b; d; c]) by (cbn in *; tauto). apply in_app_iff. destruct Hk as [ -> | -> ]; auto.
  - assert (Hr : In v ring) by (destruct Hring as [ -> | [_ ->] ]; [auto|apply in_rev; rewrite rev_involutive; auto]).
    cbn [concat]. apply in_app_iff. destruct Hk as [ -> | -> ]; [auto|].
    right. apply in_app_iff. left. destruct invert; auto. apply in_rev. rewrite rev_involutive. auto.
Qed.

(* ---- meshes one after the other ---- *)
Section Concat.
Context (ns nc : nat -> nat).
Definition slots (j : nat) : list (nat * nat * nat) :=
  map (fun i => (j, i / nc j, i mod nc j)) (seq 0 (ns j * nc j)).
Definition places (order : list nat) : list (nat * nat * nat) := flat_map slots order.

Lemma slots_at j i s : nth_error (slots j) i = Some s ->
  exists l c, s = (j, l, c) /\ l < ns j /\ c < nc j /\ i = l * nc j + c.
Proof.
  unfold slots. rewrite nth_error_map.
  destruct (Nat.lt_ge_cases i (ns j * nc j)) as [Hi|Hi].
  - rewrite nth_error_seq_lt by auto. cbn [option_map]. intros [= <-].
    exists (i / nc j), (i mod nc j). assert (nc j <> 0) by (intros E; rewrite E, Nat.mul_0_r in Hi; lia).
    split; [auto|]. split; [apply Nat.div_lt_upper_bound; nia|].
    split; [apply Nat.mod_upper_bound; auto|]. rewrite (Nat.div_mod i (nc j)) at 1 by auto. nia.
  - replace (nth_error (seq 0 (ns j * nc j)) i) with (@None nat); [discriminate|].
    symmetry. apply nth_error_None. rewrite seq_length. auto.
Qed.
Lemma slots_In j s : In s (slots j) <-> exists l c, s = (j, l, c) /\ l < ns j /\ c < nc j.
Proof.
  split.
  - intros H. apply In_nth_error in H as [i Hi]. destruct (slots_at _ _ _ Hi) as (l & c & ? & ? & ? & _). eauto.
  - intros (l & c & -> & Hl & Hc). unfold slots. apply in_map_iff. exists (l * nc j + c). split.
    + rewrite Nat.div_add_l, Nat.div_small by lia.
      rewrite (Nat.add_comm (l * nc j) c), Nat.mod_add, Nat.mod_small by lia. rewrite Nat.add_0_r. reflexivity.
    + apply in_seq. nia.
Qed.
Lemma slots_NoDup j : NoDup (slots j).
Proof.
  unfold slots. destruct (Nat.eq_dec (nc j) 0) as [E|E].
  - rewrite E, Nat.mul_0_r. constructor.
  - apply FinFun.Injective_map_NoDup; [|apply seq_NoDup].
    intros x y [= H1 H2]. rewrite (Nat.div_mod x (nc j)), (Nat.div_mod y (nc j)), H1, H2; auto.
Qed.
Lemma slots_length j : length (slots j) = ns j * nc j.
Proof. unfold slots. rewrite map_length, seq_length. auto. Qed.

Lemma places_In order j l c : In (j, l, c) (places order) <-> In j order /\ l < ns j /\ c < nc j.
Proof.
  unfold places. rewrite in_flat_map. split.
  - intros (x & Hx & H). apply slots_In in H as (l' & c' & [= <- <- <-] & ? & ?). auto.
  - intros (H & Hl & Hc). exists j. split; auto. apply slots_In. eauto.
Qed.
Lemma places_NoDup order : NoDup order -> NoDup (places order).
Proof.
  induction order as [|j order IH]; intros H; [constructor|]. inversion H; subst.
  cbn. apply NoDup_app_intro; [apply slots_NoDup|apply IH; auto|].
  intros [[j' l] c] Hx Hy. apply slots_In in Hx as (l' & c' & [= <- <- <-] & _).
  apply places_In in Hy. tauto.
Qed.

(* the position of a cell in arrays put one after the other *)
Lemma located order : forall i j l c, nth_error (places order) i = Some (j, l, c) ->
  exists p, nth_error order p = Some j /\ l < ns j /\ c < nc j /\
    forall (X : Type) (xss : list (list X)), Forall2 (fun j xs => length xs = ns j * nc j) order xss ->
      exists xs, nth_error xss p = Some xs /\ nth_error (concat xss) i = nth_error xs (l * nc j + c).
Proof.
  induction order as [|j0 order IH]; intros i j l c H; [destruct i; discriminate|].
  cbn in H. destruct (Nat.lt_ge_cases i (length (slots j0))) as [Hi|Hi].
  - rewrite nth_error_app1 in H by auto. destruct (slots_at _ _ _ H) as (l' & c' & [= -> -> ->] & Hl & Hc & E).
    exists 0. split; [auto|]. split; [auto|]. split; [auto|].
    intros X xss HF. inversion HF as [|? xs ? xss' Hx HF']; subst. exists xs. split; [auto|].
    cbn [concat]. rewrite nth_error_app1; [auto|]. rewrite Hx. rewrite slots_length in Hi. auto.
  - rewrite nth_error_app2 in H by auto. destruct (IH _ _ _ _ H) as (p & Hp & Hl & Hc & HX).
    exists (S p). split; [auto|]. split; [auto|]. split; [auto|].
    intros X xss HF. inversion HF as [|? xs ? xss' Hx HF']; subst.
    destruct (HX X xss' HF') as (ys & Hy & E). exists ys. split; [auto|].
    cbn [concat]. rewrite slots_length in *. rewrite nth_error_app2 by lia. rewrite Hx. exact E.
Qed.
Lemma places_length order {X} (xss : list (list X)) :
  Forall2 (fun j xs => length xs = ns j * nc j) order xss -> length (concat xss) = length (places order).
Proof.
  induction 1 as [|j xs order xss Hx HF IH]; [auto|]. cbn. rewrite !app_length, slots_length, Hx. f_equal. exact IH.
Qed.
End Concat.

(* cells put one after the other *)
Fixpoint stack_list {D} (off : nat) (bs : list (uvol D)) (cells : list (list vcell)) : list (list vcell) :=
  match bs, cells with
  | b :: bs', cs :: cells' => map (rename (fun i => off + i)) cs :: stack_list (off + length (uv_pts b)) bs' cells'
  | _, _ => []
  end.
Lemma stacked_concat {D} (bs : list (uvol D)) : forall off cells, stacked off bs cells = concat (stack_list off bs cells).
Proof. induction bs as [|b bs IH]; intros off [|cs cells]; cbn; auto. f_equal. auto. Qed.
Lemma stack_list_at {D} (bs : list (uvol D)) : forall off cells p b cs,
  nth_error bs p = Some b -> nth_error cells p = Some cs ->
  exists k, nth_error (stack_list off bs cells) p = Some (map (rename (fun i => off + k + i)) cs) /\
    forall y, y < length (uv_pts b) -> nth_error (flat_map uv_pts bs) (k + y) = nth_error (uv_pts b) y.
Proof.
  induction bs as [|b0 bs IH]; intros off [|cs0 cells] [|p] b cs Hb Hc; try discriminate; cbn in Hb, Hc.
  - injection Hb as <-. injection Hc as <-. exists 0. cbn [stack_list nth_error]. rewrite Nat.add_0_r.
    split; [auto|]. intros y Hy. cbn [flat_map]. rewrite nth_error_app1 by auto. auto.
  - destruct (IH (off + length (uv_pts b0)) _ _ _ _ Hb Hc) as (k & Hk & Hy).
    exists (length (uv_pts b0) + k). cbn [stack_list nth_error]. rewrite Nat.add_assoc.
    split; [auto|]. intros y Hlt. cbn [flat_map]. rewrite nth_error_app2 by lia.
    replace (length (uv_pts b0) + k + y - length (uv_pts b0)) with (k + y) by lia. auto.
Qed.
Lemma stack_list_lengths {D} (P : nat -> nat) (bs : list (uvol D)) : forall order off cells, length bs = length cells ->
  Forall2 (fun j cs => length cs = P j) order cells ->
  Forall2 (fun j cs => length cs = P j) order (stack_list off bs cells).
Proof.
  induction bs as [|b bs IH]; intros order off [|cs cells] HL HF; try discriminate; cbn [stack_list].
  - auto.
  - inversion HF; subst. constructor; [rewrite map_length; auto|]. apply IH; auto.
Qed.

Lemma NoDup_fst_fun {X} (l : list (string * X)) k v w : NoDup (map fst l) -> In (k, v) l -> In (k, w) l -> v = w.
Proof.
  intros HN Hv Hw. apply (lookup_NoDup k l v HN) in Hv. apply (lookup_NoDup k l w HN) in Hw. congruence.
Qed.

(* ---- one block ---- *)
Section Block.
Context {D : Type} (num : Z -> D) (name : string) (invert : bool) (o : options).
Context (N1 : name <> "ColumnId"%string) (N2 : name <> "LayerId"%string) (N3 : name <> "CellGroup"%string).
Notation ids := ["ColumnId"; "LayerId"; name]%string.

Definition block_of (nsubs : list nat) (groups : dict) (j : nat) (a b : item (ubase D)) (ns : nat) (blk : uvol D) : Prop :=
  let sa := ub_surf (it_mesh a) in let sb := ub_surf (it_mesh b) in
  let nc := n_base a in let np := length (us_pts sa) in
  exists perc cells cg,
    resolution_to_perc (it_res b) (it_method b) = Ok perc /\ 2 <= length perc /\ ns = length perc - 1 /\
    length (us_pts sb) = np /\
    cells_of blk cells /\ length cells = ns * nc /\ length (uv_pts blk) = length perc * np /\
    (forall l i t p q, nth_error perc l = Some t -> nth_error (us_pts sa) i = Some p -> nth_error (us_pts sb) i = Some q ->
       nth_error (uv_pts blk) (l * np + i) = Some (lerp t p q)) /\
    (forall l c base, l < ns -> nth_error (us_cells sa) c = Some base ->
       exists cell, nth_error cells (l * nc + c) = Some cell /\ extruded invert np l base cell /\
         ((forall x, In x (snd base) -> x < np) -> forall y, In y (vcell_ids cell) -> y < length (uv_pts blk))) /\
    NoDup (map fst (uv_cd blk)) /\
    (forall k, In k (map fst (uv_cd blk)) <-> In k ["ColumnId"; "LayerId"; name; "CellGroup"]%string \/ In k (map fst (us_cd sa))) /\
    (forall k v, In (k, v) (uv_cd blk) -> length v = ns * nc) /\
    block_ids num name ns nc (list_sum (firstn j nsubs)) j (uv_cd blk) /\
    In ("CellGroup"%string, cg) (uv_cd blk) /\
    (forall l c, l < ns -> c < nc -> exists k z, nth_error cg (l * nc + c) = Some (num z) /\ In (k, z) groups /\
       item_name o (ubase_view (it_mesh a)) (it_group b) c k) /\
    (forall k w, In (k, w) (uv_cd blk) -> ~ In k ["ColumnId"; "LayerId"; name; "CellGroup"]%string ->
       exists v, In (k, v) (us_cd sa) /\ forall l c, l < ns -> c < nc -> nth_error w (l * nc + c) = nth_error v c) /\
    length (uv_ghost blk) = ns * nc /\
    (forall l c base, l < ns -> nth_error (us_cells sa) c = Some base ->
       (flat_first a b perc base -> nth_error (uv_ghost blk) (l * nc + c) = Some 32) /\
       (~ flat_first a b perc base -> nth_error (uv_ghost blk) (l * nc + c) =
          Some (match us_ghost sa with Some gh => flag_of gh c | None => 0 end))).

Lemma ghost_base_length (sa sb : usurf D) r m v perc gh :
  generate_volume_unstructured sa sb r m invert = Ok v -> resolution_to_perc r m = Ok perc ->
  us_ghost sa = Some gh -> length gh = length (us_cells sa).
Proof.
  intros H Hp Hg. apply uvol_inv in H.
  destruct H as (_ & _ & perc' & ecs & Hp' & Hn & Hpts & HF & _ & _ & _ & _ & _ & _ & (g0 & Hgl & Hgh & _) & _).
  assert (perc' = perc) as -> by congruence. rewrite Hgh, Hg in Hgl. rewrite tile_length in Hgl. nia.
Qed.

Lemma flat_first_at (a b : item (ubase D)) perc base (pts : list pt) :
  let sa := ub_surf (it_mesh a) in let sb := ub_surf (it_mesh b) in let np := length (us_pts sa) in
  2 <= length perc -> length (us_pts sb) = np ->
  (forall x, In x (snd base) -> x < np) ->
  (forall l i t p q, nth_error perc l = Some t -> nth_error (us_pts sa) i = Some p -> nth_error (us_pts sb) i = Some q ->
     nth_error pts (l * np + i) = Some (lerp t p q)) ->
  flat_first a b perc base <-> flat_at pts np 0 (snd base).
Proof.
  intros sa sb np Hp2 Hl Hr HP.
  destruct (nth_error perc 0) as [t|] eqn:Et; [|apply nth_error_None in Et; lia].
  destruct (nth_error perc 1) as [t'|] eqn:Et'; [|apply nth_error_None in Et'; lia].
  assert (HQ : forall x, In x (snd base) -> exists p q, nth_error (us_pts sa) x = Some p /\ nth_error (us_pts sb) x = Some q).
  { intros x Hx. apply Hr in Hx. destruct (nth_error (us_pts sa) x) as [p|] eqn:Ep; [|apply nth_error_None in Ep; fold np in Ep; lia].
    destruct (nth_error (us_pts sb) x) as [q|] eqn:Eq; [|apply nth_error_None in Eq; lia]. eauto. }
  assert (HE : forall x p q, nth_error (us_pts sa) x = Some p -> nth_error (us_pts sb) x = Some q ->
      at_pts pts (x + 0 * np) = lerp t p q /\ at_pts pts (x + 1 * np) = lerp t' p q).
  { intros x p q Hp Hq. split; unfold at_pts; apply nth_error_nth; rewrite Nat.add_comm; eapply HP; eauto. }
  unfold flat_first, flat_at. split.
  - intros H x Hx. destruct (HQ x Hx) as (p & q & Hp & Hq). destruct (HE x p q Hp Hq) as [ -> -> ].
    eapply H; eauto.
  - intros H x s s' p q Hx Hs Hs' Hp Hq. rewrite Et in Hs. rewrite Et' in Hs'. injection Hs as <-. injection Hs' as <-.
    specialize (H x Hx). destruct (HE x p q Hp Hq) as [E1 E2]. rewrite E1, E2 in H. exact H.
Qed.

Lemma aput_keys {X} k k' (v : X) l : In k' (map fst (aput k v l)) <-> k' = k \/ In k' (map fst l).
Proof.
  induction l as [|[k0 v0] l IH]; cbn [aput map fst In]; [firstorder|].
  destruct (String.eqb_spec k k0) as [->|Hn]; cbn [map fst In]; [intuition congruence|]. rewrite IH. intuition congruence.
Qed.

Lemma blocks_facts i1 rest bs groups n :
  Forall (fun it => it_trans it = false) rest ->
  Forall (fun i => wf_ubase (it_mesh i)) (i1 :: rest) ->
  gen_loop (uops num) o name
    (fun a b r m => generate_volume_unstructured (ub_surf a) (ub_surf b) r m invert)
    (fun _ _ _ _ => Err NotImplementedError) 0 0 [] i1 rest = Ok (bs, groups, n) ->
  numbered groups /\ exists nsubs, layer_counts rest nsubs /\ length bs = length rest /\
    forall j a b, nth_error (i1 :: rest) j = Some a -> nth_error rest j = Some b ->
      exists ns blk, nth_error nsubs j = Some ns /\ nth_error bs j = Some blk /\ block_of nsubs groups j a b ns blk.
Proof.
  intros Ht Hw Hg.
  assert (Hal : Forall (fun i => ub_aligned (it_mesh i)) (i1 :: rest)).
  { eapply Forall_impl; [|exact Hw]. intros i (H & _). exact H. }
  destruct (unstructured_ids num o name invert i1 rest bs groups n N1 N2 Ht Hal Hg) as (nsubs & HLC & Lb & En & HID).
  destruct (gen_loop_inv _ _ _ _ _ _ _ _ _ _ _ _ _ Ht numbered_nil
    (Forall_impl _ (fun i => ub_align num (it_mesh i)) Hal) Hg) as (Hnum & _ & nsubs' & Ln & _ & En' & HJ).
  split; [auto|]. exists nsubs. split; [auto|]. split; [auto|].
  intros j a b Ha Hb.
  destruct (HJ j a b Ha Hb) as (arr & gj & gj' & b0 & nsub & H1 & H2 & H3 & H4 & H5 & H6 & H7 & H8 & H9).
  assert (Wa : wf_ubase (it_mesh a)).
  { rewrite Forall_forall in Hw. apply Hw. eapply nth_error_In; eauto. }
  destruct Wa as (Wal & Wnd & Wr).
  destruct HLC as [HLC1 HLC2]. destruct (HLC2 j b Hb) as (ns & Hns & perc & Hp & Ens).
  set (blk := put_all _ _ b0) in *.
  exists ns, blk. split; [auto|]. split; [auto|].
  pose proof (HID j a blk ns Ha H9 Hns) as HBI.
  destruct (uvol_cells _ _ _ _ _ _ H5) as (perc' & cells & Hp' & Hp2 & Hdec & Lc & Lp & HP & HC).
  assert (perc' = perc) as -> by congruence.
  cbn [ub_surf set_cg uops us_cells us_pts] in *.
  change (length (us_cells (ub_surf (it_mesh a)))) with (n_base a) in *.
  assert (E : nsub = length perc - 1).
  { pose proof (decode_length _ _ _ Hdec) as Hdl. cbn [ncB ncM uops us_cells ub_surf set_cg] in H7, H8.
    fold (n_base a) in H7, H8. rewrite <- Hdl, Lc in H8. apply Nat.mul_cancel_r in H8; auto. }
  assert (Hns1 : ns = length perc - 1) by lia.
  assert (Eb : uv_pts blk = uv_pts b0 /\ uv_types blk = uv_types b0 /\ uv_stream blk = uv_stream b0 /\ uv_ghost blk = uv_ghost b0).
  { unfold blk. cbn. auto. }
  destruct Eb as (Eb1 & Eb2 & Eb3 & Eb4).
  pose proof (uvol_inv _ _ _ _ _ _ H5) as (Hll & _ & perc'' & ecs & Hp'' & _ & _ & _ & _ & _ & _ & Ecd & _ & Hcdl & _).
  assert (perc'' = perc) as -> by congruence. clear Hp''.
  cbn [ub_surf set_cg uops us_cells us_pts us_cd] in Hll, Ecd, Hcdl.
  set (cda := aput "CellGroup" (map num arr) (us_cd (ub_surf (it_mesh a)))) in *.
  assert (Ekeys : map fst (uv_cd b0) = map fst cda).
  { rewrite Ecd. rewrite map_map. apply map_ext. intros [k v]. auto. }
  assert (HCG : In ("CellGroup"%string, tile (map num arr) (length perc - 1)) (uv_cd b0)).
  { rewrite Ecd. apply in_map_iff. exists ("CellGroup"%string, map num arr). split; [auto|]. apply aput_In. }
  assert (Hcdb : uv_cd blk = aput name (map num (repeat (Z.of_nat (0 + j)) (nsub * n_base a)))
     (aput "LayerId" (map num (repeat_each (map Z.of_nat (seq (0 + list_sum (firstn j nsubs')) nsub)) (n_base a)))
       (aput "ColumnId" (map num (tile (map Z.of_nat (seq 0 (n_base a))) nsub)) (uv_cd b0)))).
  { reflexivity. }
  assert (Hoth : forall k v, ~ In k ids -> In (k, v) (uv_cd blk) <-> In (k, v) (uv_cd b0)).
  { intros k v Hk. rewrite Hcdb. rewrite !aput_other; [tauto| | |]; intros ->; apply Hk; cbn; auto. }
  assert (Larr : length arr = n_base a).
  { destruct (every_cell_named _ _ _ _ _ _ _ H2 (ub_align num _ Wal) H1) as [L _].
    rewrite L. cbn. apply seq_length. }
  exists perc, cells, (tile (map num arr) (length perc - 1)).
  split; [auto|]. split; [auto|]. split; [auto|]. split; [auto|].
  split; [unfold cells_of; rewrite Eb2, Eb3; auto|]. split; [rewrite Hns1; exact Lc|].
  split; [rewrite Eb1; auto|]. split; [rewrite Eb1; exact HP|].
  split.
  { intros l c base Hl Hc. rewrite Eb1. rewrite Hns1 in Hl. destruct (HC l c base Hl Hc) as (cell & ? & ? & ? & _); eauto. }
  split.
  { rewrite Hcdb. repeat apply aput_NoDup. rewrite Ekeys. apply aput_NoDup. auto. }
  split.
  { intros k. rewrite Hcdb, !aput_keys, Ekeys. unfold cda. rewrite aput_keys. cbn [In]. intuition. }
  split.
  { intros k v Hv. destruct HBI as (col & lay & itm & Hc & Hl & Hi & Lcol & Llay & Litm & _).
    assert (HN : NoDup (map fst (uv_cd blk))).
    { rewrite Hcdb. repeat apply aput_NoDup. rewrite Ekeys. apply aput_NoDup. auto. }
    destruct (in_dec String.string_dec k ids) as [[ <- | [ <- | [ <- | [] ] ] ]|Hk].
    - rewrite (NoDup_fst_fun _ _ _ _ HN Hv Hc). auto.
    - rewrite (NoDup_fst_fun _ _ _ _ HN Hv Hl). auto.
    - rewrite (NoDup_fst_fun _ _ _ _ HN Hv Hi). auto.
    - apply Hoth in Hv; auto. rewrite Ecd in Hv. apply in_map_iff in Hv as ([k' v'] & [= <- <-] & Hv').
      cbn [fst snd] in *. rewrite (Hcdl _ _ Hv'). unfold n_base. subst ns. lia. }
  split; [exact HBI|].
  split.
  { apply Hoth; auto. intros [E'|[E'|[E'|[]]]]; congruence. }
  split.
  { intros l c Hl Hc.
    destruct (item_names _ _ _ _ _ _ H2 (ub_align num _ Wal) H1 c) as (k & (z & Hz & Hkz) & Hk).
    { cbn. rewrite seq_length. exact Hc. }
    exists k, z. split.
    - replace (n_base a) with (length (map num arr)) by (rewrite map_length; auto).
      rewrite tile_nth_error by (rewrite ?map_length; lia). rewrite nth_error_map, Hz. auto.
    - split; [|exact Hk]. destruct H4 as [ext ->]. apply in_or_app; auto. }
  split.
  { intros k w Hkw Hk. assert (Hk' : ~ In k ids) by (cbn in *; tauto).
    apply Hoth in Hkw; auto. rewrite Ecd in Hkw. apply in_map_iff in Hkw as ([k' v] & [= <- <-] & Hv).
    cbn [fst snd] in *. pose proof (Hcdl _ _ Hv) as Lv. unfold cda in Hv. apply aput_other in Hv; [|intros E'; apply Hk; rewrite E'; cbn; auto].
    exists v. split; [auto|]. rewrite tile_length in Lv. fold (n_base a) in Lv.
    assert (length v = n_base a) as Ev by nia. intros l c Hl Hc. rewrite <- Ev. apply tile_nth_error; lia. }
  destruct (ghost_law _ _ _ _ _ _ _ H5 Hp) as [Lgh HGh].
  cbn [ub_surf set_cg uops us_cells us_pts us_ghost] in Lgh, HGh. fold (n_base a) in Lgh, HGh.
  split; [rewrite Eb4, Lgh; lia|].
  intros l c base Hl Hc. rewrite Eb4.
  assert (Hl' : l < length perc - 1) by lia.
  destruct (HGh l c base Hl' Hc) as [HG1 HG2].
  assert (Hff : flat_first a b perc base <-> flat_at (uv_pts b0) (length (us_pts (ub_surf (it_mesh a)))) 0 (snd base)).
  { apply flat_first_at; auto. intros x Hx. eapply Wr; eauto. eapply nth_error_In; eauto. }
  rewrite Hff. split; [auto|]. intros Hn. rewrite (HG2 Hn).
  destruct (us_ghost (ub_surf (it_mesh a))) as [gh|] eqn:Egh; [|auto].
  assert (length gh = n_base a) as Lg.
  { apply (ghost_base_length _ _ _ _ _ _ _ H5 Hp). cbn. auto. }
  unfold flag_of. apply nth_error_nth'. rewrite Lg. apply nth_error_Some. unfold n_base. congruence.
Qed.
End Block.
