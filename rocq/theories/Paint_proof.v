(* Merging meshes keeps their coloured polygons. *)
From Coq Require Import Reals Lra Permutation.
From Verif Require Import RealAux Grid Volume_model Volume_spec UVol_proof SMerge_model SMerge_proof Groups_model Groups_spec Groups_proof Groups2_proof
  Surface_model Objects_spec Stack_model Stack_spec Stack4_proof Final_model Final_spec Final1_proof Unstr_model Unstr_spec Unstr1_proof Unstr2_proof MMerge_model MMerge_spec MMerge_proof Paint_spec.
Open Scope nat_scope.

(* ---------- all pairs (list, position) ---------- *)
Fixpoint all_from {A} (k : nat) (L : list (list A)) : list (nat * nat) :=
  match L with [] => [] | s :: r => map (pair k) (seq 0 (length s)) ++ all_from (S k) r end.

Lemma all_from_In {A} (L : list (list A)) : forall k j c,
  In (j, c) (all_from k L) <-> k <= j /\ exists s, nth_error L (j - k) = Some s /\ c < length s.
Proof.
  induction L as [|s L IH]; intros k j c; cbn [all_from].
  - split; [intros []|]. intros (_ & s & E & _). destruct (j - k); discriminate.
  - rewrite in_app_iff, IH, in_map_iff. split.
    + intros [(x & [= <- <-] & Hx)|(Hj & s' & E & Hc)].
      * apply in_seq in Hx. split; [lia|]. exists s. rewrite Nat.sub_diag. split; [reflexivity|lia].
      * split; [lia|]. exists s'. split; [|auto]. replace (j - k) with (S (j - S k)) by lia. exact E.
    + intros (Hj & s' & E & Hc). destruct (Nat.eq_dec j k) as [->|Hn].
      * left. rewrite Nat.sub_diag in E. injection E as <-. exists c. split; [auto|]. apply in_seq. lia.
      * right. split; [lia|]. exists s'. split; [|auto]. replace (j - k) with (S (j - S k)) in E by lia. exact E.
Qed.

Lemma all_from_NoDup {A} (L : list (list A)) : forall k, NoDup (all_from k L).
Proof.
  induction L as [|s L IH]; intros k; cbn [all_from]; [constructor|]. apply NoDup_app_intro; auto.
  - apply FinFun.Injective_map_NoDup; [intros x y [= ->]; auto|apply seq_NoDup].
  - intros [j c] H1 H2. apply in_map_iff in H1 as (x & [= <- <-] & _). apply all_from_In in H2 as (H & _). lia.
Qed.

Definition picked {A} (d : A) (L : list (list A)) (jc : nat * nat) : A := nth (snd jc) (nth (fst jc) L []) d.

Lemma all_from_picked {A} (d : A) (L : list (list A)) : forall pre,
  map (picked d (pre ++ L)) (all_from (length pre) L) = concat L.
Proof.
  induction L as [|s L IH]; intros pre; cbn [all_from concat map]; [reflexivity|]. rewrite map_app. f_equal.
  - rewrite map_map. unfold picked. cbn [fst snd]. rewrite app_nth2, Nat.sub_diag by lia. cbn [nth].
    induction s as [|x s IHs] using rev_ind; [reflexivity|]. rewrite app_length, seq_app, map_app. cbn [length seq map plus].
    f_equal.
    + rewrite <- IHs at 2. apply map_ext_in. intros c Hc. apply in_seq in Hc. now rewrite app_nth1 by lia.
    + now rewrite app_nth2, Nat.sub_diag by lia.
  - specialize (IH (pre ++ [s])). rewrite <- app_assoc in IH. cbn [app] in IH. rewrite app_length in IH. cbn [length] in IH.
    replace (length pre + 1) with (S (length pre)) in IH by lia. exact IH.
Qed.

Lemma Forall2_nth {A B} (R : A -> B -> Prop) l : forall m, length l = length m ->
  (forall i a b, nth_error l i = Some a -> nth_error m i = Some b -> R a b) -> Forall2 R l m.
Proof.
  induction l as [|a l IH]; intros [|b m] HL H; try discriminate; constructor.
  - apply (H 0); reflexivity.
  - apply IH; [now injection HL|]. intros i x y Hx Hy. exact (H (S i) x y Hx Hy).
Qed.
Lemma Forall2_get {A B} (R : A -> B -> Prop) l m : Forall2 R l m -> forall i a, nth_error l i = Some a ->
  exists b, nth_error m i = Some b /\ R a b.
Proof. induction 1 as [|a b l m H HF IH]; intros [|i] x; cbn [nth_error]; try discriminate; [intros [= <-]; eauto|auto]. Qed.
Lemma Forall2_get_r {A B} (R : A -> B -> Prop) l m : Forall2 R l m -> forall i b, nth_error m i = Some b ->
  exists a, nth_error l i = Some a /\ R a b.
Proof. induction 1 as [|a b l m H HF IH]; intros [|i] x; cbn [nth_error]; try discriminate; [intros [= <-]; eauto|auto]. Qed.

Lemma choose_list {A B} (P : A -> B -> Prop) (l : list A) : (forall a, In a l -> exists b, P a b) -> exists m, Forall2 P l m.
Proof.
  induction l as [|a l IH]; intros H; [exists []; constructor|].
  destruct (H a (or_introl eq_refl)) as (b & Hb). destruct IH as (m & Hm); [intros x Hx; apply H; now right|]. exists (b :: m). now constructor.
Qed.

Lemma Forall2_len {A B} (R : A -> B -> Prop) l m : Forall2 R l m -> length l = length m.
Proof. induction 1; cbn; auto. Qed.

Lemma mapM_len {A B} (f : A -> res B) l : forall m, mapM f l = Ok m -> length m = length l.
Proof.
  induction l as [|a l IH]; intros m; cbn [mapM]; [intros [= <-]; auto|]. destruct (f a); [|discriminate]. cbn [bind].
  destruct (mapM f l); [|discriminate]. cbn [bind]. intros [= <-]. cbn. f_equal. auto.
Qed.

Lemma drawn_length {D} (g : uvol D) ps : drawn g ps -> exists cells, cells_of g cells /\ length cells = length ps.
Proof. intros (cells & Hc & HF). exists cells. split; [auto|]. now apply Forall2_len in HF. Qed.

Section Merged.
Context {D : Type} (num : Z -> D) (int : D -> Z) (Hint : forall z, int (num z) = z) (o : options).
Context (pvmerge : list (uvol D) -> res (uvol D)) (Hmerge : appends pvmerge).
Context (tol : R) (clean : uvol D -> uvol D) (Hclean : cleans tol clean).

Lemma merged_shown items shown g labels :
  Forall (fun it => wf_mesh (fst it)) items -> Forall2 (shows int o) items shown ->
  merge_mesh num int o pvmerge clean items = Ok (g, labels) ->
  (exists l moved, drawn g (map snd l) /\ names_of int g labels (map fst l) /\
    Permutation (concat shown) moved /\ Forall2 (same_within tol) moved l) /\
  wf_mesh (mkMM g (Some labels)) /\ numbered labels.
Proof.
  intros HW HS H.
  destruct (merge_mesh_spec num int Hint o pvmerge Hmerge tol clean Hclean items HW g labels H) as
    (place & (HND & HIn) & (cells & Hc & Lc & HP) & (Hnl & HNk & cg & names & Hcg & Hn & Ln & HKl & HNm) & (HK & HA) & _).
  assert (Hpl : forall j c, In (j, c) place <-> exists s, nth_error shown j = Some s /\ c < length s).
  { intros j c. rewrite HIn. split.
    - intros (it & cs & Hit & Hcs & Hlt). destruct (Forall2_get _ _ _ HS j it Hit) as (s & Es & (Hd & _)).
      exists s. split; [auto|]. destruct (drawn_length _ _ Hd) as (cs' & Hcs' & Ll). unfold cells_of in *. rewrite Hcs in Hcs'. injection Hcs' as <-.
      rewrite map_length in Ll. lia.
    - intros (s & Es & Hlt). destruct (Forall2_get_r _ _ _ HS j s Es) as (it & Hit & (Hd & _)).
      destruct (drawn_length _ _ Hd) as (cs' & Hcs' & Ll). rewrite map_length in Ll. exists it, cs'. repeat split; auto. lia. }
  set (d := (""%string, @nil pt)).
  assert (HPerm : Permutation (concat shown) (map (picked d shown) place)).
  { rewrite <- (all_from_picked d shown []). cbn [app length]. apply Permutation_map. apply NoDup_Permutation; auto using all_from_NoDup.
    intros [j c]. rewrite all_from_In, Hpl, Nat.sub_0_r. split; [intros (_ & ?); auto|intros ?; split; [lia|auto]]. }
  (* the polygon of each cell *)
  assert (HQ : forall i jc, nth_error place i = Some jc -> exists cell ps, nth_error cells i = Some cell /\
     nth_error names i = Some (fst (picked d shown jc)) /\
     (exists ty ids, cell = Plain ty ids /\ polygon_type ty (length ps) /\ Forall2 (fun v q => nth_error (uv_pts g) v = Some q) ids ps) /\
     Forall2 (within tol) (snd (picked d shown jc)) ps).
  { intros i [j c] Hi. destruct (HP i j c Hi) as (it & cs & cell & f & Hit & Hcs & Hcell & Hci & Hv).
    destruct (Forall2_get _ _ _ HS j it Hit) as (s & Es & ((cs' & Hcs' & HF) & HB)).
    unfold cells_of in Hcs, Hcs'. rewrite Hcs in Hcs'. injection Hcs' as <-.
    destruct (Forall2_get _ _ _ HF c cell Hcell) as (p & Ep & ty & ids & -> & Hty & Hids).
    rewrite nth_error_map in Ep. destruct (nth_error s c) as [[k p']|] eqn:Esc; [|discriminate]. injection Ep as ->.
    assert (Epk : picked d shown (j, c) = (k, p)).
    { unfold picked. cbn [fst snd]. rewrite (nth_error_nth _ _ _ Es). now apply nth_error_nth. }
    rewrite Epk. cbn [fst snd].
    destruct (HNm i j c Hi) as (it' & k' & Hit' & Hk' & HB'). rewrite Hit in Hit'. injection Hit' as <-.
    assert (k' = k). { apply (HB c k); [rewrite nth_error_map, Esc; reflexivity|exact HB']. } subst k'.
    cbn [vcell_ids] in Hv.
    assert (exists ps, Forall2 (fun v q => nth_error (uv_pts g) v = Some q) (map f ids) ps /\ Forall2 (within tol) p ps) as (ps & H1 & H2).
    { clear -Hids Hv. induction Hids as [|v q ids p Hq Hids IH]; [exists []; split; constructor|].
      destruct (Hv v q (or_introl eq_refl) Hq) as (r & Hr & Hw). destruct IH as (ps & H1 & H2); [intros; apply Hv; auto; now right|].
      exists (r :: ps). split; constructor; auto. }
    exists (rename f (Plain ty ids)), ps. split; [auto|]. split; [auto|]. split; [|auto]. exists ty, (map f ids). split; [reflexivity|].
    rewrite <- (Forall2_len _ _ _ H2). auto. }
  assert (HAll : exists pss, length pss = length place /\ forall i jc, nth_error place i = Some jc -> exists cell ps, nth_error pss i = Some ps /\
     nth_error cells i = Some cell /\ nth_error names i = Some (fst (picked d shown jc)) /\
     (exists ty ids, cell = Plain ty ids /\ polygon_type ty (length ps) /\ Forall2 (fun v q => nth_error (uv_pts g) v = Some q) ids ps) /\
     Forall2 (within tol) (snd (picked d shown jc)) ps).
  { destruct (choose_list (fun i ps => forall jc, nth_error place i = Some jc -> exists cell, nth_error cells i = Some cell /\
     nth_error names i = Some (fst (picked d shown jc)) /\
     (exists ty ids, cell = Plain ty ids /\ polygon_type ty (length ps) /\ Forall2 (fun v q => nth_error (uv_pts g) v = Some q) ids ps) /\
     Forall2 (within tol) (snd (picked d shown jc)) ps) (seq 0 (length place))) as (pss & HF).
    { intros i Hi. apply in_seq in Hi. destruct (nth_error place i) as [jc|] eqn:E; [|apply nth_error_None in E; lia].
      destruct (HQ i jc E) as (cell & ps & Hr). exists ps. intros jc' [= <-]. exists cell. exact Hr. }
    exists pss. pose proof (Forall2_len _ _ _ HF) as L. rewrite seq_length in L. split; [auto|]. intros i jc Hi.
    assert (Hlt : i < length place) by (apply nth_error_Some; congruence).
    destruct (Forall2_get _ _ _ HF i i) as (ps & Eps & Hr). { rewrite nth_error_seq. destruct (Nat.ltb_spec i (length place)); [reflexivity|lia]. }
    destruct (Hr jc Hi) as (cell & Hrest). exists cell, ps. split; auto. }
  destruct HAll as (pss & Lp & HAll).
  assert (Lcg : length cg = length place).
  { unfold get_cell_group in Hn. destruct (mapM _ (map int cg)) as [ns|] eqn:EM; [|discriminate]. cbn [bind] in Hn. injection Hn as ->.
    apply mapM_len in EM. rewrite map_length in EM. congruence. }
  assert (Hlk : lookup "CellGroup"%string (uv_cd g) = Some cg) by (apply lookup_NoDup; auto).
  split; [|split; [|auto]].
  - exists (combine names pss), (map (picked d shown) place).
    assert (En : map fst (combine names pss) = names).
    { clear -Ln Lp. revert pss Ln Lp. generalize (length place). induction names as [|a names IH]; intros n [|b pss] Ln Lp; cbn in *; subst; try discriminate; auto.
      f_equal. apply (IH (length names)); auto. }
    assert (Ep : map snd (combine names pss) = pss).
    { clear -Ln Lp. revert pss Ln Lp. generalize (length place). induction names as [|a names IH]; intros n [|b pss] Ln Lp; cbn in *; subst; try discriminate; auto.
      f_equal. apply (IH (length names)); auto. }
    rewrite En, Ep. split.
    { exists cells. split; [auto|]. apply Forall2_nth; [lia|]. intros i cell ps Hcell Hps.
      assert (Hlt : i < length place) by (rewrite <- Lc; apply nth_error_Some; congruence).
      destruct (nth_error place i) as [jc|] eqn:E; [|apply nth_error_None in E; lia].
      destruct (HAll i jc E) as (cell' & ps' & E1 & E2 & _ & H3 & _).
      assert (cell' = cell) by congruence. assert (ps' = ps) by congruence. subst. exact H3. }
    split; [exists cg; split; auto|]. split; [auto|].
    apply Forall2_nth. { rewrite map_length, combine_length. lia. }
    intros i a b Ha Hb. rewrite nth_error_map in Ha. destruct (nth_error place i) as [jc|] eqn:E; [|discriminate]. injection Ha as <-.
    destruct (HAll i jc E) as (cell' & ps' & E1 & E2 & E3 & _ & H4). destruct b as [k ps].
    assert (nth_error names i = Some k /\ nth_error pss i = Some ps) as [Q1 Q2].
    { split; [rewrite <- En|rewrite <- Ep]; rewrite nth_error_map, Hb; reflexivity. }
    assert (ps' = ps) by congruence. subst. split; cbn [fst snd]; [congruence|exact H4].
  - split; [exists cells; exact Hc|]. split; [exact HNk|]. cbn [mm_vol]. intros k v Hv.
    assert (length (uv_types g) = length place) by (rewrite <- Lc; symmetry; exact (decode_length _ _ _ Hc)).
    destruct (String.string_dec k "CellGroup"%string) as [->|Hk].
    + assert (v = cg) by (apply lookup_NoDup in Hv; auto; congruence). subst v. lia.
    + destruct (HA k v Hv Hk) as [L _]. lia.
Qed.
End Merged.

(* ---------- areas ---------- *)
Lemma sum_list_perm l m : Permutation l m -> sum_list l = sum_list m.
Proof. unfold sum_list. induction 1 as [|x l m H IH|x y l|l m n H IH H' IH']; cbn [fold_right]; [auto|now rewrite IH|ring|congruence]. Qed.
Lemma sum_list_app l m : (sum_list (l ++ m) = sum_list l + sum_list m)%R.
Proof. unfold sum_list. induction l as [|x l IH]; cbn [app fold_right]; [ring|]. rewrite IH. ring. Qed.

Lemma total_area_app l m : (total_area (l ++ m) = total_area l + total_area m)%R.
Proof. unfold total_area. now rewrite map_app, sum_list_app. Qed.
Lemma named_area_app k l m : (named_area k (l ++ m) = named_area k l + named_area k m)%R.
Proof.
  unfold named_area. rewrite <- total_area_app. f_equal. induction l as [|x l IH]; cbn [app filter]; auto.
  destruct (String.eqb (fst x) k); cbn [app]; now rewrite IH.
Qed.
Lemma named_area_perm k l m : Permutation l m -> named_area k l = named_area k m.
Proof.
  intros H. unfold named_area, total_area. apply sum_list_perm, Permutation_map.
  induction H as [|x l m H IH|x y l|]; cbn [filter]; auto.
  - destruct (String.eqb (fst x) k); auto.
  - destruct (String.eqb (fst x) k), (String.eqb (fst y) k); auto. constructor.
  - now rewrite IHPermutation1.
Qed.
Lemma total_area_perm l m : Permutation l m -> total_area l = total_area m.
Proof. intros H. unfold total_area. now apply sum_list_perm, Permutation_map. Qed.

Lemma within_0 p q : within 0 p q -> p = q.
Proof.
  destruct p as [[x y] z], q as [[x' y'] z']. intros (A & B & C).
  assert (K : forall u, (Rabs u <= 0 -> u = 0)%R).
  { intros u Hu. destruct (Req_dec u 0) as [E|E]; [auto|]. apply Rabs_pos_lt in E. lra. }
  apply K in A, B, C. repeat f_equal; lra.
Qed.
Lemma same_within_0 l m : Forall2 (same_within 0) l m -> l = m.
Proof.
  induction 1 as [|[k p] [k' p'] l m (E & H) _ IH]; [auto|]. cbn in E, H. subst. f_equal. f_equal.
  clear -H. induction H as [|a b p p' Hw _ IH]; [auto|]. apply within_0 in Hw. congruence.
Qed.
