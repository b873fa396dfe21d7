(* Merging keeps meshes of triangles and quadrilaterals with one ghost flag per cell or none, and one row of
   point data per point. *)
From Coq Require Import Reals Lia Permutation.
From Verif Require Import Grid Volume_model Volume_spec Groups_model Stack4_proof Final_model Unstr_model Unstr_spec
  MMerge_model MMerge_proof.
Open Scope nat_scope.

Definition small (c : vcell) : Prop := exists ids, c = Plain 5 ids \/ c = Plain 9 ids.
Definition tidy {D} (g : uvol D) : Prop :=
  exists cells, cells_of g cells /\ Forall small cells /\ (uv_ghost g = [] \/ length (uv_ghost g) = length cells).
Definition rows {D} (g : uvol D) : Prop := forall k x, In (k, x) (uv_pd g) -> length x = length (uv_pts g).

Lemma small_rename f c : small c -> small (rename f c).
Proof. intros (ids & [->| ->]); exists (map f ids); cbn; auto. Qed.
Lemma small_renames f cells : Forall small cells -> Forall small (map (rename f) cells).
Proof. intros H. apply Forall_map. eapply Forall_impl; [|exact H]. intros c. apply small_rename. Qed.

Lemma appended_tidy {D} (a b g : uvol D) : appended [a; b] g -> tidy a -> tidy b -> tidy g.
Proof.
  intros (HC & _ & _ & _ & HG & HG') (ca & Ca & Sa & Ga) (cb & Cb & Sb & Gb).
  destruct (HC [ca; cb]) as (f & Hc & _); [repeat constructor; auto|]. cbn [stacked] in Hc. rewrite app_nil_r in Hc.
  eexists. split; [exact Hc|]. split.
  { apply small_renames, Forall_app. split; now apply small_renames. }
  rewrite map_length, app_length, !map_length.
  assert (La : length (uv_types a) = length ca) by (symmetry; exact (decode_length _ _ _ Ca)).
  assert (Lb : length (uv_types b) = length cb) by (symmetry; exact (decode_length _ _ _ Cb)).
  destruct (Nat.eq_dec (length (uv_ghost a)) (length ca)) as [Ea|Ea].
  - destruct (Nat.eq_dec (length (uv_ghost b)) (length cb)) as [Eb|Eb].
    + right. rewrite HG; [cbn [flat_map]; rewrite !app_length; cbn [length]; lia|].
      intros x [ <- |[ <- |[]]]; lia.
    + left. apply HG'. exists b. split; [now right; left|]. destruct Gb as [Gb|Gb]; [|contradiction].
      split; [|exact Gb]. rewrite Gb in Eb. cbn in Eb. destruct (uv_types b); [cbn in Lb; lia|discriminate].
  - left. apply HG'. exists a. split; [now left|]. destruct Ga as [Ga|Ga]; [|contradiction].
    split; [|exact Ga]. rewrite Ga in Ea. cbn in Ea. destruct (uv_types a); [cbn in La; lia|discriminate].
Qed.

Section Merge.
Context {D : Type} (num : Z -> D) (int : D -> Z) (o : options).
Context (pvmerge : list (uvol D) -> res (uvol D)) (Hmerge : appends pvmerge).
Context (tol : R) (clean : uvol D -> uvol D) (Hclean : cleans tol clean).

Lemma merge_two_tidy a b g : pvmerge [a; b] = Ok g -> tidy a -> tidy b -> tidy g.
Proof. intros H Ta Tb. destruct (two_orders _ _ _ _ Hmerge H) as [HA|HA]; eapply appended_tidy; eauto. Qed.

(* a property of meshes that merging and numbering keep *)
Lemma merge_meshes_keeps (P : uvol D -> Prop) items : (forall a b g, pvmerge [a; b] = Ok g -> P a -> P b -> P g) ->
  (forall arr g, P g -> P (with_groups num arr g)) -> forall acc groups r groups',
  Forall (fun it => P (mm_vol (fst it))) items -> (forall a, acc = Some a -> P a) ->
  merge_meshes num int o pvmerge items acc groups = Ok (r, groups') -> forall g, r = Some g -> P g.
Proof.
  intros HP HW. induction items as [|[m k] items IH]; intros acc groups r groups' HF Hacc; cbn [merge_meshes].
  { intros [= <- <-]. exact Hacc. }
  inversion HF as [|? ? Hm Hms]; subst. cbn [fst] in Hm.
  destruct (initialize_group_array _ _ _ _ _) as [[arr groups1]|]; [|discriminate]. cbn [bind].
  destruct acc as [a|].
  - destruct (pvmerge _) as [g|] eqn:E; [|discriminate]. cbn [bind]. apply IH; auto. intros x [= <-]. eapply HP; eauto.
  - cbn [bind]. apply IH; auto. intros x [= <-]. auto.
Qed.

Lemma merge_mesh_keeps (P : uvol D -> Prop) items g labels : (forall a b g, pvmerge [a; b] = Ok g -> P a -> P b -> P g) ->
  (forall arr g, P g -> P (with_groups num arr g)) ->
  (forall g0 groups, P g0 -> finish_unstructured num int clean g0 groups = Ok (g, labels) -> P g) ->
  Forall (fun it => P (mm_vol (fst it))) items -> merge_mesh num int o pvmerge clean items = Ok (g, labels) -> P g.
Proof.
  intros HP HW HC HF. unfold merge_mesh. destruct (merge_meshes _ _ _ _ _ _ _) as [[[g0|] groups]|] eqn:E; cbn [bind]; try discriminate.
  apply HC. eapply (merge_meshes_keeps P items HP HW None); eauto. discriminate.
Qed.

Lemma merge_mesh_tidy items g labels : Forall (fun it => tidy (mm_vol (fst it))) items ->
  merge_mesh num int o pvmerge clean items = Ok (g, labels) -> tidy g.
Proof.
  apply merge_mesh_keeps; [apply merge_two_tidy|intros arr x H; exact H|].
  intros g0 groups (cells & Hc & Hs & Hg). unfold finish_unstructured.
  destruct (clean_groups _ _) as [[cg l]|]; [|discriminate]. cbn [bind]. intros [= <- _].
  destruct (Hclean g0 cells Hc) as (f & Hc' & _ & Eg & _). eexists. split; [exact Hc'|]. split; [now apply small_renames|].
  cbn [uv_ghost]. rewrite Eg, map_length. unfold clean_ghost. destruct (forallb _ _); auto.
Qed.

Lemma merge_mesh_rows items g labels : (forall bs g, Forall rows bs -> pvmerge bs = Ok g -> rows g) -> (forall g, rows g -> rows (clean g)) ->
  Forall (fun it => rows (mm_vol (fst it))) items ->
  merge_mesh num int o pvmerge clean items = Ok (g, labels) -> rows g.
Proof.
  intros HM HCl. apply merge_mesh_keeps; [|intros arr x H; exact H|].
  { intros a b x H Ha Hb. apply (HM [a; b]); auto. }
  intros g0 groups Hr. unfold finish_unstructured.
  destruct (clean_groups _ _) as [[cg l]|]; [|discriminate]. cbn [bind]. intros [= <- _]. exact (HCl g0 Hr).
Qed.
End Merge.
