(* extract_cell_geometry on the cells of a mesh: proofs. *)
From Coq Require Import Permutation Sorted.
From Verif Require Import Topo_model Volume_spec Topo_spec Topo_proof.
Open Scope nat_scope.

Lemma Forall2_impl {A B} (P Q : A -> B -> Prop) l m :
  (forall x y, P x y -> Q x y) -> Forall2 P l m -> Forall2 Q l m.
Proof. induction 2; constructor; auto. Qed.

Lemma existsb_42 l : existsb (Nat.eqb 42) l = true <-> In 42 l.
Proof.
  rewrite existsb_exists; split.
  - intros (x & Hx & E); apply Nat.eqb_eq in E; subst; auto.
  - intros H; exists 42; auto.
Qed.

Lemma pick_faces_Ok faces loc fs :
  pick_faces faces loc = Ok fs <-> Forall2 (fun l f => nth_error faces l = Some f) loc fs.
Proof.
  unfold pick_faces; rewrite mapM_Ok; split; intros H.
  - eapply Forall2_impl; [|exact H]; simpl; intros a b E; destruct (nth_error faces a); congruence.
  - eapply Forall2_impl; [|exact H]; simpl; intros a b E; rewrite E; auto.
Qed.

(* put_faces, cell by cell *)
Definition put_ok (faces locs : list (list nat)) (cells : list conn) (i : nat) (c : conn) : Prop :=
  exists c0, nth_error cells i = Some c0 /\
  ((exists loc fs, nth_error locs i = Some loc /\ loc <> [] /\
      Forall2 (fun l f => nth_error faces l = Some f) loc fs /\ c = CFaces fs) \/
   ((nth_error locs i = None \/ nth_error locs i = Some []) /\ c = c0)).

Lemma put_faces_Ok faces locs cells r : put_faces faces locs cells = Ok r ->
  length r = length cells /\
  forall i c, nth_error r i = Some c -> put_ok faces locs cells i c.
Proof.
  revert cells r; induction locs as [|loc locs IH]; intros cells r; cbn [put_faces].
  - intros H%Ok_inj; subst r. split; auto. intros i c Hc. exists c; split; auto. right; split; auto.
    left; destruct i; auto.
  - destruct loc as [|a loc].
    + destruct cells as [|c0 cells].
      * intros H. destruct (IH _ _ H) as [Hl Hc]. split; auto.
        intros i c Hn. destruct r; [|discriminate]. destruct i; discriminate.
      * destruct (put_faces faces locs cells) as [r'|] eqn:E; [|discriminate].
        cbn [bind]. intros H%Ok_inj; subst r. destruct (IH _ _ E) as [Hl Hc].
        split; [simpl; lia|]. intros [|i] c Hn.
        -- injection Hn as <-. exists c0; split; [auto|]. right; split; simpl; auto.
        -- apply Hc in Hn as (c1 & Hn1 & Hn2). exists c1; split; auto.
    + destruct cells as [|c0 cells]; [discriminate|].
      destruct (pick_faces faces (a :: loc)) as [fs|] eqn:Ef; [|discriminate].
      destruct (put_faces faces locs cells) as [r'|] eqn:E; [|discriminate].
      cbn [bind]. intros H%Ok_inj; subst r. destruct (IH _ _ E) as [Hl Hc].
      split; [simpl; lia|]. intros [|i] c Hn.
      * injection Hn as <-. exists c0; split; auto. left. exists (a :: loc), fs.
        repeat split; auto; [discriminate|]. apply pick_faces_Ok; auto.
      * apply Hc in Hn as (c1 & Hn1 & Hn2). exists c1; split; auto.
Qed.

Lemma put_faces_def faces locs cells : length locs <= length cells ->
  (forall i, i < length cells -> exists c, put_ok faces locs cells i c) ->
  exists r, put_faces faces locs cells = Ok r.
Proof.
  revert cells; induction locs as [|loc locs IH]; intros cells Hl H; cbn [put_faces]; [eauto|].
  destruct cells as [|c0 cells]; [simpl in Hl; lia|].
  destruct (IH cells) as [r Hr]; [simpl in Hl; lia| |].
  - intros i Hi. destruct (H (S i)) as [c Hc]; [simpl; lia|]. exists c; auto.
  - rewrite Hr. destruct loc as [|a loc]; [cbn [bind]; eauto|].
    destruct (H 0) as (c & c1 & _ & Hc); [simpl; lia|].
    destruct Hc as [(loc' & fs & E & _ & F & _)|[[E|E] _]]; try discriminate.
    injection E as <-. apply pick_faces_Ok in F. rewrite F; cbn [bind]; eauto.
Qed.

Lemma connectivity_Ok m cells : wf_mesh m -> get_cell_connectivity m = Ok cells ->
  length cells = length (v_types m) /\
  forall i c, nth_error cells i = Some c -> cell_conn m i c.
Proof.
  intros [W1 W2]. unfold get_cell_connectivity. destruct (existsb (Nat.eqb 42) (v_types m)) eqn:E.
  - intros H. apply put_faces_Ok in H as [Hl Hc]. split; [rewrite Hl, map_length; auto|].
    intros i c Hn. apply Hc in Hn as (c0 & Hn0 & Hcase).
    rewrite nth_error_map in Hn0. destruct (nth_error (v_cells m) i) as [ids|] eqn:Ei; [|discriminate].
    injection Hn0 as <-. exists ids; split; auto.
    apply existsb_42 in E.
    destruct Hcase as [(loc & fs & A)|[A ->]]; [left; split; eauto|right; split; auto].
  - intros H%Ok_inj; subst cells. split; [rewrite map_length; auto|].
    intros i c Hn. rewrite nth_error_map in Hn. destruct (nth_error (v_cells m) i) as [ids|] eqn:Ei; [|discriminate].
    injection Hn as <-. exists ids; split; auto. right; split; auto. left.
    intros Hin; apply existsb_42 in Hin; congruence.
Qed.

Lemma cell_conn_fun m i c c' : cell_conn m i c -> cell_conn m i c' -> c = c'.
Proof.
  intros (ids & H1 & H2) (ids' & H1' & H2').
  assert (ids' = ids) as -> by congruence.
  destruct H2 as [(A & loc & fs & B1 & B2 & B3 & ->)|[A ->]], H2' as [(A' & loc' & fs' & B1' & B2' & B3' & ->)|[A' ->]]; auto.
  - assert (loc' = loc) as -> by congruence. f_equal.
    clear -B3 B3'. revert fs' B3'; induction B3; intros fs' H'; inversion H'; subst; auto.
    f_equal; [congruence|auto].
  - destruct A' as [A'|[A'|A']]; [tauto|congruence|congruence].
  - destruct A as [A|[A|A]]; [tauto|congruence|congruence].
Qed.

Lemma connectivity_def m : wf_mesh m ->
  (forall i, i < length (v_types m) -> exists c, cell_conn m i c) ->
  exists cells, get_cell_connectivity m = Ok cells.
Proof.
  intros [W1 W2] H. unfold get_cell_connectivity.
  destruct (existsb (Nat.eqb 42) (v_types m)) eqn:E; [|eauto].
  apply put_faces_def; [rewrite map_length; lia|].
  rewrite map_length, W1. intros i Hi. destruct (H i Hi) as (c & ids & H1 & H2).
  exists c, (CIds ids). split; [rewrite nth_error_map, H1; auto|].
  apply existsb_42 in E.
  destruct H2 as [(_ & loc & fs & A)|[[A|A] ->]]; [left; eauto|tauto|right; auto].
Qed.

(* ---- edges of one cell ---- *)
Lemma zip_pairs_map2 a b : zip_pairs a b = map (fun '(u, v) => [u; v]) (combine a b).
Proof. unfold zip_pairs. revert b; induction a; intros [|y b]; simpl; f_equal; auto. Qed.

Lemma pairs_combine {A} (l : list A) : Volume_spec.pairs l = combine (removelast l) (tl l).
Proof.
  induction l as [|x l IH]; auto. destruct l as [|y l]; auto.
  change (Volume_spec.pairs (x :: y :: l)) with ((x, y) :: Volume_spec.pairs (y :: l)). rewrite IH. reflexivity.
Qed.

Lemma ring_combine {A} (l : list A) : ring_edges l = combine l (roll1 l).
Proof.
  destruct l as [|x l]; auto. unfold ring_edges. rewrite pairs_combine; simpl roll1; simpl tl.
  f_equal. change (x :: l ++ [x]) with ((x :: l) ++ [x]). apply removelast_last.
Qed.

Lemma fancy_Ok ids ind r : fancy ids ind = Ok r <->
  Forall2 (fun i x => nth_error ids i = Some x) ind r.
Proof.
  unfold fancy; rewrite mapM_Ok; split; intros H; (eapply Forall2_impl; [|exact H]); simpl; intros a b E.
  - destruct (nth_error ids a); congruence.
  - rewrite E; auto.
Qed.

Lemma cell_edges_Ok rg t ids fs : existsb (Nat.eqb t) supported2d = true ->
  cell_edges rg t ids = Ok fs <-> edges_of rg t ids fs.
Proof.
  intros Hs. unfold cell_edges.
  assert (t = 0 \/ t = 3 \/ t = 8 \/ t = 7 \/ t = 4 \/ t = 9 \/ t = 5) as Ht.
  { apply existsb_exists in Hs as (x & Hx & E). apply Nat.eqb_eq in E; subst x.
    simpl in Hx; intuition auto. }
  assert (Hline : zip_pairs (removelast ids) (tl ids) = map (fun '(u, v) => [u; v]) (Volume_spec.pairs ids)).
  { rewrite zip_pairs_map2, pairs_combine; auto. }
  assert (Hring : zip_pairs ids (roll1 ids) = map (fun '(u, v) => [u; v]) (ring_edges ids)).
  { rewrite zip_pairs_map2, ring_combine; auto. }
  rewrite Hline, Hring.
  destruct Ht as [->|[->|[->|[->|[->|[->| ->]]]]]]; cbn [Nat.eqb orb negb andb].
  - destruct rg; simpl; (split; [intros H%Ok_inj; subst; constructor; auto|]); intros H; inversion H; subst;
      simpl in *; try tauto; try lia; try congruence; intuition lia.
  - split; [intros H%Ok_inj; subst; constructor; auto|].
    intros H; inversion H; subst; simpl in *; try congruence; intuition lia.
  - split.
    + destruct ids as [|a [|b [|c [|d l]]]]; simpl; try discriminate.
      intros H%Ok_inj; subst. constructor.
    + intros H; inversion H; subst; simpl in *; try (intuition lia); reflexivity.
  - rewrite Bool.orb_true_r. split; [intros H%Ok_inj; subst; apply eo_ring; simpl; auto|].
    intros H; inversion H; subst; simpl in *; try congruence; intuition lia.
  - split; [intros H%Ok_inj; subst; constructor; auto|].
    intros H; inversion H; subst; simpl in *; try congruence; intuition lia.
  - rewrite Bool.orb_true_r. split; [intros H%Ok_inj; subst; apply eo_ring; simpl; auto|].
    intros H; inversion H; subst; simpl in *; try congruence; intuition lia.
  - rewrite Bool.orb_true_r. split; [intros H%Ok_inj; subst; apply eo_ring; simpl; auto|].
    intros H; inversion H; subst; simpl in *; try congruence; intuition lia.
Qed.

(* ---- faces of one cell ---- *)
(* order in which the table lists the VTK faces, up to the order of vertices *)
Definition sets_match (tab vt : list (list nat)) : bool :=
  forallb (fun l => existsb (fun l' => list_eqb (vset l) (vset l')) vt) tab &&
  (length tab =? length vt)%nat &&
  forallb (fun l => length (filter (fun l' => list_eqb (vset l) (vset l')) tab) =? 1) tab.

Definition reorder (tab vt : list (list nat)) : list (list nat) :=
  map (fun l => match find (fun l' => list_eqb (vset l) (vset l')) vt with Some l' => l' | None => [] end) tab.

Lemma table_reorder t tab : celltype_to_faces t = Some tab ->
  In t [10; 11; 12; 13; 14] /\ Permutation (reorder tab (vtk_faces t)) (vtk_faces t) /\
  Forall2 (fun loc l => same_set l loc) (reorder tab (vtk_faces t)) tab.
Proof.
  intros H.
  assert (Ht : In t [10; 11; 12; 13; 14]).
  { do 15 (destruct t as [|t]; [simpl in H; try discriminate; simpl; tauto|]). discriminate. }
  split; [auto|].
  assert (Hf : forall l l', list_eqb (vset l) (vset l') = true -> same_set l l').
  { intros l l' E; apply vset_same; apply list_eqb_eq; auto. }
  simpl in Ht. destruct Ht as [<-|[<-|[<-|[<-|[<-|[]]]]]]; simpl in H; injection H as <-;
    (split; [cbv; match goal with |- Permutation ?a ?b =>
       apply NoDup_Permutation_bis; [repeat constructor; simpl; intuition congruence|simpl; lia|
        intros x Hx; simpl in *; intuition auto] end
     |cbv -[same_set]; repeat (apply Forall2_cons; [apply Hf; reflexivity|]); apply Forall2_nil]).
Qed.

Lemma nth_error_in_range (ids : list nat) loc : (forall v, In v loc -> v < length ids) ->
  Forall2 (fun i x => nth_error ids i = Some x) loc (map (fun v => nth v ids 0) loc).
Proof.
  induction loc as [|v loc IH]; intros H; simpl; constructor.
  - apply nth_error_nth'; apply H; simpl; auto.
  - apply IH; intros; apply H; simpl; auto.
Qed.

Lemma Forall2_nth_map (ids : list nat) loc f : Forall2 (fun i x => nth_error ids i = Some x) loc f ->
  f = map (fun v => nth v ids 0) loc /\ (forall v, In v loc -> v < length ids).
Proof.
  induction 1 as [|v x loc f Hv _ [IH1 IH2]]; simpl; [split; auto; tauto|].
  split.
  - f_equal; auto. symmetry; apply nth_error_nth; auto.
  - intros v' [<-|Hv']; auto. apply nth_error_Some; congruence.
Qed.

Lemma same_set_map (ids : list nat) l l' : same_set l l' ->
  same_set (map (fun v => nth v ids 0) l) (map (fun v => nth v ids 0) l').
Proof.
  intros H x; rewrite !in_map_iff; split; intros (v & Hv & Hin); exists v; split; auto; apply H; auto.
Qed.

Lemma table_faces_Ok t tab c fs : celltype_to_faces t = Some tab ->
  table_faces tab c = Ok fs -> faces_of t c fs.
Proof.
  intros Ht H. destruct (table_reorder _ _ Ht) as (H1 & H2 & H3).
  unfold table_faces in H. destruct c as [ids|fs0]; [|discriminate]. cbn [ids_of_conn bind] in H.
  apply mapM_Ok in H.
  assert (Hf : Forall2 (fun loc f => f = map (fun v => nth v ids 0) loc /\ (forall v, In v loc -> v < length ids)) tab fs).
  { eapply Forall2_impl; [|exact H]. simpl; intros a b E. apply fancy_Ok in E. apply Forall2_nth_map; auto. }
  clear H. apply fo_linear with (table := reorder tab (vtk_faces t)); auto.
  - generalize dependent (reorder tab (vtk_faces t)); clear Ht. intros tab' _ H3.
    revert fs Hf; induction H3 as [|loc l tab' tab Hl _ IH]; intros fs Hf loc' Hin v Hv; [inversion Hin|].
    inversion Hf as [|? f ? fs' [_ Hr] Hf']; subst.
    destruct Hin as [<-|Hin]; [apply Hr; apply Hl; auto|eapply IH; eauto].
  - generalize dependent (reorder tab (vtk_faces t)); clear Ht. intros tab' _ H3.
    revert fs Hf; induction H3 as [|loc l tab' tab Hl _ IH]; intros fs Hf; inversion Hf as [|? f ? fs' [-> _] Hf']; subst; constructor; auto.
    apply same_set_map; auto.
Qed.

Lemma table_faces_def t tab ids table : celltype_to_faces t = Some tab ->
  Permutation table (vtk_faces t) ->
  (forall loc, In loc table -> forall v, In v loc -> v < length ids) ->
  exists fs, table_faces tab (CIds ids) = Ok fs /\ length fs = length table.
Proof.
  intros Ht Hp Hr. destruct (table_reorder _ _ Ht) as (H1 & H2 & H3).
  exists (map (map (fun v => nth v ids 0)) tab). split.
  - unfold table_faces; cbn [ids_of_conn bind]. apply mapM_Ok.
    assert (Ha : forall l, In l tab -> forall v, In v l -> v < length ids).
    { intros l Hl v Hv. apply In_nth_error in Hl as [k Hk].
      assert (exists loc, nth_error (reorder tab (vtk_faces t)) k = Some loc /\ same_set l loc) as (loc & Hn & Hs).
      { clear -H3 Hk. revert k Hk; induction H3; intros [|k] Hk; try discriminate; simpl in *; eauto.
        injection Hk as <-; eauto. }
      apply (Hr loc); [|apply Hs; auto].
      apply (Permutation_in _ (Permutation_sym Hp)). apply (Permutation_in _ H2). eapply nth_error_In; eauto. }
    clear -Ha. induction tab as [|l tab IH]; simpl; constructor; [|apply IH; intros; eapply Ha; simpl; eauto].
    apply fancy_Ok. apply nth_error_in_range. intros; eapply Ha; simpl; eauto.
  - rewrite map_length. apply Permutation_length in H2, Hp.
    unfold reorder in H2; rewrite map_length in H2. lia.
Qed.

Lemma faces_of_conn_Ok c fs : faces_of_conn c = Ok fs -> faces_of 42 c fs.
Proof.
  destruct c as [[|a ids]|fs']; simpl; try discriminate; intros H%Ok_inj; subst; constructor.
Qed.

(* one cell, as in the mixed loop *)
Definition one_cell (ct : conn * nat) : res (list (list nat)) :=
  let '(c, t) := ct in
  if t =? 42 then faces_of_conn c
  else match celltype_to_faces t with
       | Some table => table_faces table c
       | None => if t =? 0 then Ok [] else Err AttributeError
       end.

Lemma one_cell_Ok c t fs : one_cell (c, t) = Ok fs -> faces_of t c fs.
Proof.
  unfold one_cell. destruct (t =? 42) eqn:E.
  - apply Nat.eqb_eq in E; subst; apply faces_of_conn_Ok.
  - destruct (celltype_to_faces t) as [tab|] eqn:Et; [apply table_faces_Ok; auto|].
    destruct (t =? 0) eqn:E0; [|discriminate].
    apply Nat.eqb_eq in E0; subst. intros H%Ok_inj; subst; constructor.
Qed.

Lemma Forall2_combine {A B C} (P : A * B -> C -> Prop) a b r : length a = length b ->
  Forall2 P (combine a b) r ->
  length r = length a /\
  forall i x y, nth_error a i = Some x -> nth_error b i = Some y ->
    exists z, nth_error r i = Some z /\ P (x, y) z.
Proof.
  revert b r; induction a as [|x a IH]; intros [|y b] r Hl H; simpl in *; try lia.
  - inversion H; subst; split; auto. intros [|i]; discriminate.
  - inversion H as [|? z ? r' Hz Hr]; subst. destruct (IH b r') as [Hl' Hn]; auto.
    split; [simpl; lia|]. intros [|i] x' y' Hx Hy; simpl in *.
    + injection Hx as <-; injection Hy as <-; eauto.
    + eauto.
Qed.

Lemma cell_faces_Ok types cells faces : length cells = length types ->
  cell_faces types cells = Ok faces ->
  length faces = length types /\
  forall i t c, nth_error types i = Some t -> nth_error cells i = Some c ->
    exists fs, nth_error faces i = Some fs /\ faces_of t c fs.
Proof.
  intros Hl. unfold cell_faces. destruct types as [|t0 ts]; [discriminate|].
  set (types := t0 :: ts) in *. destruct (forallb (Nat.eqb t0) types) eqn:Ea.
  - assert (Ht : forall i t, nth_error types i = Some t -> t = t0).
    { intros i t Hn. apply nth_error_In in Hn. rewrite forallb_forall in Ea. apply Ea in Hn.
      apply Nat.eqb_eq in Hn; auto. }
    destruct (t0 =? 42) eqn:E42.
    + apply Nat.eqb_eq in E42. intros H%mapM_Ok. split; [apply Forall2_len in H; lia|].
      intros i t c Hi Hc. apply Ht in Hi as ->. destruct (Forall2_nth_error _ _ _ _ _ H Hc) as (fs & Hf & E).
      exists fs; split; auto. rewrite E42; apply faces_of_conn_Ok; auto.
    + intros H%mapM_Ok. split; [apply Forall2_len in H; lia|].
      intros i t c Hi Hc. apply Ht in Hi as ->. destruct (Forall2_nth_error _ _ _ _ _ H Hc) as (fs & Hf & E).
      exists fs; split; auto. destruct (celltype_to_faces t0) as [tab|] eqn:Etab; [|discriminate].
      eapply table_faces_Ok; eauto.
  - intros H%mapM_Ok. apply Forall2_combine in H as [H1 H2]; [|lia]. split; [lia|].
    intros i t c Hi Hc. destruct (H2 i c t Hc Hi) as (fs & Hf & E). exists fs; split; auto.
    apply one_cell_Ok; auto.
Qed.

Lemma faces_of_table t : In t [10; 11; 12; 13; 14] -> exists tab, celltype_to_faces t = Some tab
  /\ t =? 42 = false.
Proof.
  simpl; intros [<-|[<-|[<-|[<-|[<-|[]]]]]]; simpl; eexists; repeat split.
Qed.

(* the faces of a cell can be computed, and there are as many *)
Lemma one_cell_def t c fs : faces_of t c fs -> exists fs', one_cell (c, t) = Ok fs' /\ length fs' = length fs.
Proof.
  intros H; destruct H as [fs| |t ids table fs Ht Hp Hr Hf|c]; unfold one_cell; simpl; eauto.
  destruct (faces_of_table t Ht) as (tab & Etab & E42).
  rewrite E42, Etab. destruct (table_faces_def t tab ids table Etab Hp Hr) as (fs' & Hok & Hlen).
  exists fs'; split; auto. apply Forall2_len in Hf; lia.
Qed.

Lemma mapM_def {A B} (f : A -> res B) l : (forall x, In x l -> exists y, f x = Ok y) -> exists r, mapM f l = Ok r.
Proof.
  induction l as [|x l IH]; intros H; simpl; eauto.
  destruct (H x) as [y Hy]; simpl; auto. rewrite Hy; cbn [bind].
  destruct IH as [r Hr]; [intros; apply H; simpl; auto|]. rewrite Hr; cbn [bind]; eauto.
Qed.

Lemma in_combine_nth {A B} (a : list A) (b : list B) x y : In (x, y) (combine a b) ->
  exists i, nth_error a i = Some x /\ nth_error b i = Some y.
Proof.
  revert b; induction a as [|x0 a IH]; intros [|y0 b] H; simpl in H; try tauto.
  destruct H as [[= <- <-]|H]; [exists 0; auto|].
  destruct (IH _ H) as (i & H1 & H2); exists (S i); auto.
Qed.

Lemma cell_faces_def types cells faces : length cells = length types -> length faces = length types ->
  (forall i t c, nth_error types i = Some t -> nth_error cells i = Some c ->
     exists fs, nth_error faces i = Some fs /\ faces_of t c fs) ->
  concat faces <> [] ->
  exists faces', cell_faces types cells = Ok faces' /\ map (fun fs => length fs) faces' = map (fun fs => length fs) faces.
Proof.
  intros Hl1 Hl2 H Hne.
  assert (Hex : exists faces', cell_faces types cells = Ok faces').
  { unfold cell_faces. destruct types as [|t0 ts].
    { destruct faces; [simpl in Hne; congruence|simpl in Hl2; lia]. }
    set (types := t0 :: ts) in *. destruct (forallb (Nat.eqb t0) types) eqn:Ea.
    - assert (Ht : forall i t, nth_error types i = Some t -> t = t0).
      { intros i t Hn. apply nth_error_In in Hn. rewrite forallb_forall in Ea. apply Ea in Hn.
        apply Nat.eqb_eq in Hn; auto. }
      assert (Hall : forall c, In c cells -> exists fs', one_cell (c, t0) = Ok fs').
      { intros c Hc. apply In_nth_error in Hc as [i Hi].
        destruct (nth_error types i) as [t|] eqn:Et.
        2:{ apply nth_error_None in Et. assert (i < length cells) by (apply nth_error_Some; congruence). lia. }
        destruct (H i t c Et Hi) as (fs & _ & Hf). apply Ht in Et; subst t.
        destruct (one_cell_def _ _ _ Hf) as (fs' & Hok & _); eauto. }
      unfold one_cell in Hall. destruct (t0 =? 42).
      + apply mapM_def; auto.
      + apply mapM_def; intros c Hc. destruct (Hall c Hc) as [fs' Hf].
        destruct (celltype_to_faces t0) as [tab|] eqn:Etab; eauto.
        destruct (t0 =? 0) eqn:E0; [|discriminate]. apply Nat.eqb_eq in E0.
        (* all cells empty: no face *)
        exfalso; apply Hne. clear Hall Hf Hc c.
        assert (Hnil : forall i fs, nth_error faces i = Some fs -> fs = []).
        { intros i fs Hi. assert (i < length faces) by (apply nth_error_Some; congruence).
          destruct (nth_error types i) as [t|] eqn:Et; [|apply nth_error_None in Et; lia].
          destruct (nth_error cells i) as [c|] eqn:Ec; [|apply nth_error_None in Ec; lia].
          destruct (H i t c Et Ec) as (fs2 & Hi' & Hf'). assert (fs2 = fs) as -> by congruence.
          apply Ht in Et; subst t. rewrite E0 in Hf'. inversion Hf'; subst; auto.
          simpl in *; intuition lia. }
        clear -Hnil. induction faces as [|fs faces IH]; auto. simpl.
        rewrite (Hnil 0 fs eq_refl). apply IH. intros i fs' Hi; apply (Hnil (S i)); auto.
    - apply mapM_def. intros [c t] Hin. apply in_combine_nth in Hin as (i & Hi & Hj).
      destruct (H i t c Hj Hi) as (fs & _ & Hf). destruct (one_cell_def _ _ _ Hf) as (fs' & Hok & _). eauto. }
  destruct Hex as [faces' Hok]. exists faces'; split; auto.
  apply cell_faces_Ok in Hok as [Hl' H']; auto.
  apply nth_error_ext; intros i. rewrite !nth_error_map.
  destruct (nth_error types i) as [t|] eqn:Et.
  2:{ apply nth_error_None in Et. rewrite (proj2 (nth_error_None _ _)), (proj2 (nth_error_None _ _)); auto; lia. }
  assert (i < length types) by (apply nth_error_Some; congruence).
  destruct (nth_error cells i) as [c|] eqn:Ec; [|apply nth_error_None in Ec; lia].
  destruct (H i t c Et Ec) as (fs & -> & Hf). destruct (H' i t c Et Ec) as (fs' & -> & Hf'). simpl; f_equal.
  destruct Hf as [fs| |t ids table fs A1 A2 A3 A4|c]; inversion Hf'; subst; auto; simpl in *; try (intuition lia).
  apply Forall2_len in A4. apply Permutation_length in A2.
  match goal with HH : Forall2 _ _ fs' |- _ => apply Forall2_len in HH end.
  match goal with HH : Permutation _ _ |- _ => apply Permutation_length in HH end. lia.
Qed.
