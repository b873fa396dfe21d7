From Coq Require Import Reals Lra Lia Sorted Permutation.
From Verif Require Import Prelude Surface_model Groups_model Groups_spec Groups2_proof Polygon_model Polygon_spec Polygon3_proof
  Lines_spec Voronoi_model Voronoi_spec Lines1_proof Topo5_proof Voronoi1_proof Voronoi2_proof Voronoi3_proof Voronoi4_proof Voronoi5_proof Unstr_spec VFinal_model VFinal_spec.
Open Scope nat_scope.

Lemma same_point_spec p q : same_point p q = true <-> p = q.
Proof.
  destruct p as [[x y] z], q as [[x' y'] z']. cbn.
  destruct (Req_EM_T x x'), (Req_EM_T y y'), (Req_EM_T z z'); cbn; split; intros H; try discriminate; congruence.
Qed.
Lemma insert_lifted axis p : insert_axis axis p = lifted axis p.
Proof. destruct p as [x y]. destruct axis as [|[|?]]; reflexivity. Qed.

Lemma within_trans a b p q r : within a p q -> within b q r -> within (a + b) p r.
Proof.
  destruct p as [[? ?] ?], q as [[? ?] ?], r as [[? ?] ?]. cbn. intros (H1 & H2 & H3) (K1 & K2 & K3).
  assert (T : forall x y z u v, (Rabs (x - y) <= u -> Rabs (y - z) <= v -> Rabs (x - z) <= u + v)%R).
  { intros x y z u v Hx Hy. replace (x - z)%R with ((x - y) + (y - z))%R by ring. eapply Rle_trans; [apply Rabs_triang|]. lra. }
  repeat split; eapply T; eauto.
Qed.

Lemma picks_range {A} (v : list A) ids xs i : picks v ids xs -> In i ids -> exists x, nth_error v i = Some x.
Proof. induction 1; intros []; subst; eauto. Qed.

(* the mesh handed over *)
Lemma polygon_mesh_of axis m f : length (vm_groups m) = length (vm_xyz m) -> polygon_mesh axis m = Ok f -> mesh_of axis m f.
Proof.
  intros L. unfold polygon_mesh. destruct (vm_points m) as [|p ps] eqn:Ep; [discriminate|]. intros H. apply Ok_inj in H. subst f.
  unfold mesh_of. cbn [f_pts f_cells f_data]. rewrite <- Ep. split; [apply map_ext, insert_lifted|].
  split; [rewrite map_map; apply map_id|]. split.
  - intros c Hc. apply in_map_iff in Hc as (x & <- & _). reflexivity.
  - clear - L. revert L. generalize (vm_xyz m) as y, (vm_groups m) as x.
    intros y x. revert y. induction x as [|a x IH]; intros [|b y] L; try discriminate; [split; reflexivity|].
    cbn in *. destruct (IH y) as [? ?]; [lia|]. split; f_equal; auto.
Qed.

Lemma cleaned_spec tol clean f : tidies tol clean ->
  f_data (cleaned clean f) = f_data f /\ length (f_cells (cleaned clean f)) = length (f_cells f) /\
  forall k c, nth_error (f_cells f) k = Some c -> exists c', nth_error (f_cells (cleaned clean f)) k = Some c' /\ fst c' = fst c /\
    forall ps, picks (f_pts f) (snd c) ps -> outlined tol (f_pts (cleaned clean f)) c' ps.
Proof.
  intros H. destruct (H (f_pts f) (f_cells f)) as (r & E & N). unfold cleaned.
  destruct (clean (f_pts f, f_cells f)) as [pts cells] eqn:Ec. cbn [fst snd f_data f_cells f_pts] in *. subst cells.
  split; [reflexivity|]. split; [apply map_length|]. intros k c Hc. exists (fst c, map r (snd c)).
  split; [rewrite nth_error_map, Hc; reflexivity|]. split; [reflexivity|]. intros ps Hp.
  assert (Hin : forall i, In i (snd c) -> forall p, nth_error (f_pts f) i = Some p -> exists q, nth_error pts (r i) = Some q /\ within tol p q).
  { intros i Hi p Hp'. eapply N; eauto. eapply nth_error_In; eauto. }
  unfold outlined. cbn [snd]. clear - Hp Hin. induction Hp as [|i p ids ps Hi _ IH].
  - exists []. split; constructor.
  - destruct (Hin i (or_introl eq_refl) p Hi) as (q & Hq & Hw). destruct IH as (qs & H1 & H2); [intros; apply Hin; [now right|assumption]|].
    exists (q :: qs). split; constructor; assumption.
Qed.

Lemma outlined_picks tol pts c ps : outlined tol pts c ps -> exists qs, picks pts (snd c) qs /\ Forall2 (within tol) ps qs.
Proof. exact (fun H => H). Qed.

Lemma outlined_trans a b pts pts' c c' ps :
  outlined a pts c ps -> (forall qs, picks pts (snd c) qs -> outlined b pts' c' qs) -> outlined (a + b) pts' c' ps.
Proof.
  intros (qs & H1 & H2) H. destruct (H qs H1) as (rs & H3 & H4). exists rs. split; [exact H3|].
  clear - H2 H4. revert rs H4. induction H2; intros rs H4; inversion H4; subst; constructor; eauto using within_trans.
Qed.

(* ids of the polygons *)
Lemma voronoi_polygons {A} (g : vgeo A) o b items vo m i cell : voronoi_mesh g o b items vo = Ok m ->
  nth_error (vm_cells m) i = Some cell -> exists ps, picks (vm_points m) cell ps.
Proof.
  unfold voronoi_mesh. destruct (scatter g o b items) as [[st t]|]; [|discriminate]. cbn [bind fst snd].
  unfold assemble. destruct (tessellation _ _ _ _ _) as [[regions verts]|]; [|discriminate]. cbn [bind].
  destruct (shorten _ _ _ _ _) as [[[[active vpts] regions'] verts']|]; [|discriminate]. cbn [bind].
  destruct (negb _); [discriminate|]. destruct (polygons _ _ _ _ _ _ _) as [[points cells]|] eqn:E; [|discriminate].
  cbn [bind]. intros H. apply Ok_inj in H. subst m. cbn [vm_cells vm_points].
  destruct (polygons_spec _ _ _ _ _ _ _ _ _ E) as (ext & css & -> & -> & F). cbn [app] in *.
  intros Hc. apply nth_error_In in Hc. revert Hc. clear E. induction F as [|r c rs cs (ps & _ & _ & Hp) _ IH]; intros Hc; [easy|].
  destruct Hc as [->|Hc]; eauto.
Qed.

Lemma voronoi_numbered {A} (g : vgeo A) o b items vo m : well_formed b items -> voronoi_mesh g o b items vo = Ok m -> Groups_spec.numbered (vm_labels m).
Proof.
  intros WF. unfold voronoi_mesh. destruct (scatter g o b items) as [[st t]|] eqn:E; [|discriminate]. cbn [bind fst snd].
  destruct (scatter_spec g o b items WF st t E) as (S & _ & _ & _ & _ & _ & N & _).
  unfold assemble. destruct (tessellation _ _ _ _ _) as [[regions verts]|]; [|discriminate]. cbn [bind].
  destruct (shorten _ _ _ _ _) as [[[[active vpts] regions'] verts']|]; [|discriminate]. cbn [bind].
  destruct (negb _); [discriminate|]. destruct (polygons _ _ _ _ _ _ _) as [[points cells]|]; [|discriminate].
  cbn [bind]. intros H. apply Ok_inj in H. subst m. exact N.
Qed.

(* ---- fuse_cells without condition on the groups ---- *)
Section Any.
Variables (P D : Type) (eqb : P -> P -> bool) (dimension : list nat -> nat) (boundary : list nat -> list (list P)).
Lemma fold_upd_len {B} (v : B) is : forall l, length (fold_left (fun k i => upd i v k) is l) = length l.
Proof. induction is as [|i is IH]; intros l; cbn; [reflexivity|]. rewrite IH. apply upd_length. Qed.
Lemma fuse_group_len (m : fmesh P D) st g st' : fuse_group P D eqb dimension boundary m st g = Ok st' ->
  length (fst st') = length (fst st) /\ length (snd st') = length (snd st).
Proof.
  destruct st as [cells mask]. unfold fuse_group. destruct (existsb _ _); [discriminate|].
  destruct (_ =? _); [|discriminate]. destruct (boundary g) as [|poly [|]]; try discriminate.
  destruct (polygon_ids _ _ _ _ _) as [ids|]; [|discriminate]. cbn [bind]. destruct g as [|i0 rest]; [discriminate|].
  intros H. apply Ok_inj in H. subst st'. cbn [fst snd tl]. rewrite !fold_upd_len, upd_length. split; reflexivity.
Qed.
Lemma fuse_loop_len (m : fmesh P D) : forall groups st st', fuse_loop P D eqb dimension boundary m st groups = Ok st' ->
  length (fst st') = length (fst st) /\ length (snd st') = length (snd st).
Proof.
  induction groups as [|g gs IH]; intros st st' H; cbn in H; [apply Ok_inj in H; subst; auto|].
  destruct (fuse_group _ _ _ _ _ _ _ _) as [s1|] eqn:E; [|discriminate]. cbn [bind] in H.
  apply fuse_group_len in E as [? ?]. apply IH in H as [? ?]. split; congruence.
Qed.
Lemma fold_upd_in {B} (v : B) is l j : j < length l ->
  (In j is -> nth_error (fold_left (fun k i => upd i v k) is l) j = Some v) /\
  (~ In j is -> nth_error (fold_left (fun k i => upd i v k) is l) j = nth_error l j).
Proof. intros Hj. rewrite fold_upd_nth by exact Hj. destruct (in_dec Nat.eq_dec j is); split; intros; reflexivity || contradiction. Qed.

(* cell i is a later member of a group *)
Definition later (groups : list (list nat)) (i : nat) : Prop := exists i0 rest, In (i0 :: rest) groups /\ In i rest.

Lemma fuse_group_mask (m : fmesh P D) st g st' j : fuse_group P D eqb dimension boundary m st g = Ok st' ->
  j < length (snd st) -> length (fst st) = length (snd st) ->
  (In j (tl g) -> nth_error (snd st') j = Some false) /\
  (~ In j (tl g) -> nth_error (snd st') j = nth_error (snd st) j) /\
  (~ In j g -> nth_error (fst st') j = nth_error (fst st) j) /\ g <> [].
Proof.
  destruct st as [cells mask]. unfold fuse_group. destruct (existsb _ _); [discriminate|].
  destruct (_ =? _); [|discriminate]. destruct (boundary g) as [|poly [|]]; try discriminate.
  destruct (polygon_ids _ _ _ _ _) as [ids|]; [|discriminate]. cbn [bind]. destruct g as [|i0 rest]; [discriminate|].
  intros H. apply Ok_inj in H. subst st'. cbn [fst snd tl]. intros Hj L. cbn [snd] in Hj.
  destruct (fold_upd_in false rest mask j Hj) as [H1 H2]. split; [exact H1|]. split; [exact H2|]. split; [|discriminate].
  intros Hn. destruct (fold_upd_in (0, []) rest (upd i0 (7, ids) cells) j) as [_ H4]; [rewrite upd_length; lia|].
  cbn in Hn. rewrite H4 by tauto. rewrite upd_nth_error. destruct (Nat.eqb_spec i0 j); [subst; tauto|reflexivity].
Qed.

Lemma fuse_loop_mask (m : fmesh P D) j : forall groups st st', fuse_loop P D eqb dimension boundary m st groups = Ok st' ->
  j < length (snd st) -> length (fst st) = length (snd st) ->
  (later groups j -> nth_error (snd st') j = Some false) /\
  (~ later groups j -> nth_error (snd st') j = nth_error (snd st) j) /\
  (~ In j (concat groups) -> nth_error (fst st') j = nth_error (fst st) j).
Proof.
  induction groups as [|g gs IH]; intros st st' H Hj L; cbn in H.
  - apply Ok_inj in H. subst. repeat split; auto. intros (? & ? & [] & _).
  - destruct (fuse_group _ _ _ _ _ _ _ _) as [s1|] eqn:E; [|discriminate]. cbn [bind] in H.
    destruct (fuse_group_len _ _ _ _ E) as [L1 L2]. destruct (fuse_group_mask _ _ _ _ _ E Hj L) as (M1 & M2 & M3 & Hne).
    destruct (IH _ _ H ltac:(lia) ltac:(lia)) as (N1 & N2 & N3).
    assert (Hl : later (g :: gs) j <-> In j (tl g) \/ later gs j).
    { split.
      - intros (i0 & rest & [->|Hg] & Hr); [left; exact Hr|right; exists i0, rest; auto].
      - intros [Hg|(i0 & rest & Hg & Hr)]; [|exists i0, rest; split; [now right|assumption]].
        destruct g as [|i0 rest]; [destruct Hg|]. exists i0, rest. split; [now left|exact Hg]. }
    assert (Dec : later gs j \/ ~ later gs j).
    { clear. induction gs as [|g gs IH]; [right; intros (? & ? & [] & _)|].
      destruct IH as [(i0 & rest & Hg & Hr)|IH]; [left; exists i0, rest; split; [now right|assumption]|].
      destruct g as [|i0 rest]; [right; intros (a & b & [Hx|Hx] & Hr); [discriminate|apply IH; exists a, b; auto]|].
      destruct (in_dec Nat.eq_dec j rest) as [Hin|Hin]; [left; exists i0, rest; split; [now left|assumption]|].
      right. intros (a & b & [Hx|Hx] & Hr); [injection Hx as <- <-; auto|apply IH; exists a, b; auto]. }
    split; [|split].
    + intros Hx. destruct Dec as [Dl|Dl]; [auto|]. rewrite N2 by assumption. apply M1. apply Hl in Hx. tauto.
    + intros Hx. rewrite Hl in Hx. rewrite N2 by tauto. apply M2. tauto.
    + cbn [concat]. intros Hx. rewrite in_app_iff in Hx. rewrite N3 by tauto. apply M3. tauto.
Qed.

Lemma fuse_rows (m : fmesh P D) groups out : length (f_data m) = length (f_cells m) ->
  fuse_cells P D eqb dimension boundary m groups = Ok out ->
  exists kept, StronglySorted lt kept /\ (forall i, In i kept <-> i < length (f_cells m) /\ ~ later groups i) /\
    f_pts out = f_pts m /\ picks (f_data m) kept (f_data out) /\
    Forall2 (fun i c => ~ In i (concat groups) -> nth_error (f_cells m) i = Some c) kept (f_cells out).
Proof.
  intros L H. unfold fuse_cells in H. destruct groups as [|g gs]; [discriminate|]. set (groups := g :: gs) in *. clearbody groups.
  destruct (fuse_loop _ _ _ _ _ _ _ _) as [[cells mask]|] eqn:E; [|discriminate]. cbn [bind fst snd] in H.
  destruct (fuse_loop_len _ _ _ _ E) as [L1 L2]. cbn [fst snd] in *. rewrite repeat_length in L2.
  assert (M := fun j => fuse_loop_mask _ j _ _ _ E). cbn [fst snd] in M. rewrite repeat_length in M.
  apply Ok_inj in H. subst out. cbn [f_data f_cells f_pts]. exists (mask_get mask (seq 0 (length mask))).
  split; [apply mask_get_seq_sorted|]. split; [|split; [reflexivity|split; [exact (mask_get_picks mask (f_data m) ltac:(lia) [])|]]].
  - intros i. rewrite mask_get_seq_In, Nat.sub_0_r. split.
    + intros [_ Ht]. assert (Hi : i < length (f_cells m)) by (rewrite <- L2; apply nth_error_Some; congruence).
      split; [exact Hi|]. intros Hl. destruct (M i Hi eq_refl) as (M1 & _). rewrite (M1 Hl) in Ht. discriminate.
    + intros [Hi Hl]. split; [lia|]. destruct (M i Hi eq_refl) as (_ & M2 & _). rewrite (M2 Hl).
      apply nth_error_repeat. exact Hi.
  - assert (Q := mask_get_picks mask cells ltac:(lia) []). cbn [length app] in Q. unfold picks in Q.
    assert (R : forall i, In i (mask_get mask (seq 0 (length mask))) -> i < length (f_cells m)).
    { intros i Hi. apply mask_get_seq_In in Hi as [_ Hi]. rewrite Nat.sub_0_r in Hi. rewrite <- L2. apply nth_error_Some. congruence. }
    clear - Q R M. induction Q as [|i c kept cs Hic _ IH]; constructor; [|apply IH; intros; apply R; now right].
    intros Hn. destruct (M i (R i (or_introl eq_refl)) eq_refl) as (_ & _ & M3). rewrite <- (M3 Hn). exact Hic.
Qed.
End Any.

Lemma sorted_picks (l ids xs : list nat) : StronglySorted lt l -> StronglySorted lt ids -> picks l ids xs -> StronglySorted lt xs.
Proof.
  intros Hl Hi H. induction H as [|i x ids xs Hx Hxs IH]; [constructor|].
  apply StronglySorted_inv in Hi as [Hi Hf]. constructor; [auto|]. rewrite Forall_forall in *. intros y Hy.
  assert (exists j, In j ids /\ nth_error l j = Some y) as (j & Hj & Hjy).
  { clear - Hxs Hy. induction Hxs as [|j z ids xs Hz _ IH]; [easy|]. destruct Hy as [->|Hy]; [exists j; split; [now left|assumption]|].
    destruct (IH Hy) as (j' & ? & ?). exists j'. split; [now right|assumption]. }
  specialize (Hf j Hj). clear - Hl Hf Hx Hjy. revert i j Hf Hx Hjy. induction Hl as [|a l Hl IH Ha]; intros i j Hf Hx Hjy; [destruct i; discriminate|].
  destruct j as [|j]; [lia|]. destruct i as [|i]; cbn in *.
  - injection Hx as ->. rewrite Forall_forall in Ha. apply Ha. eapply nth_error_In; eauto.
  - eapply (IH i j); eauto. lia.
Qed.

Lemma picks_compose {A} (v : list A) ids xs js ys : picks v ids xs -> picks xs js ys ->
  exists ks, picks ids js ks /\ picks v ks ys.
Proof.
  intros H K. induction K as [|j y js ys Hj _ IH]; [exists []; split; constructor|].
  destruct IH as (ks & H1 & H2). assert (exists k, nth_error ids j = Some k /\ nth_error v k = Some y) as (k & Hk & Hv).
  { clear - H Hj. revert j Hj. induction H as [|i x ids xs Hx _ IH]; intros [|j] Hj; cbn in *; try discriminate.
    - injection Hj as ->. eauto.
    - eauto. }
  exists (k :: ks). split; constructor; assumption.
Qed.

Lemma picks_map {A B} (f : A -> B) v ids xs : picks v ids xs -> picks (map f v) ids (map f xs).
Proof. induction 1; cbn; constructor; auto. rewrite nth_error_map, H. reflexivity. Qed.
Lemma picks_self {A} (v : list A) : picks v (seq 0 (length v)) v.
Proof. assert (H := picks_seq [] v []). cbn in H. rewrite app_nil_r in H. exact H. Qed.
