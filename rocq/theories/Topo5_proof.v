(* Face tables, flattened connectivity, dimension and extraction: proofs. *)
From Coq Require Import Reals Lra Permutation Sorted.
From Verif Require Import Topo_model Volume_spec Topo_spec Topo_proof Topo2_proof Topo3_proof.
Open Scope nat_scope.

(* ---- one cell: the listed faces are the faces of the table ---- *)
Lemma add_all_new i fs l : NoDup (map e_key l ++ map vset fs) ->
  fold_left (fun l c => add_entry i c l) fs l = l ++ map (fun f => mkEntry (vset f) [i] f) fs.
Proof.
  revert l; induction fs as [|f fs IH]; intros l H; simpl; [rewrite app_nil_r; auto|].
  simpl in H. pose proof (NoDup_remove_2 _ _ _ H) as Hn.
  rewrite add_entry_new by (intros Hin; apply Hn; apply in_or_app; auto).
  rewrite IH.
  - rewrite <- app_assoc; auto.
  - rewrite map_app; simpl. rewrite <- app_assoc; simpl; auto.
Qed.

Lemma list_max_ones {A} (l : list A) : list_max (1 :: map (fun _ => 1) l) = 1.
Proof.
  induction l as [|x l IH]; auto.
  change (list_max (1 :: map (fun _ => 1) (x :: l))) with (Nat.max 1 (list_max (1 :: map (fun _ => 1) l))).
  rewrite IH; auto.
Qed.

Lemma polydata_one fs : NoDup (map vset fs) -> fs <> [] ->
  get_polydata [fs] = Ok (mkGeom fs (map (fun _ => [0%Z]) fs)).
Proof.
  intros H Hne. unfold get_polydata; simpl. rewrite add_all_new by auto. simpl.
  destruct fs as [|f fs]; [congruence|]. cbn [map].
  set (l := mkEntry (vset f) [0] f :: map (fun f0 => mkEntry (vset f0) [0] f0) fs).
  assert (Hw : list_max (map (fun e => length (e_ids e)) l) = 1).
  { unfold l. cbn [map e_ids length]. rewrite map_map. apply list_max_ones. }
  change (Ok (mkGeom (map e_face l) (map (fun e => pad (list_max (map (fun e => length (e_ids e)) l)) (e_ids e)) l)) =
    Ok (mkGeom (f :: fs) ([0%Z] :: map (fun _ => [0%Z]) fs))).
  rewrite Hw. f_equal. unfold l. cbn [map e_face e_ids]. rewrite !map_map. cbn [e_face e_ids]. rewrite map_id. auto.
Qed.

Definition phi (ids : list nat) (k : nat) : nat := nth k ids 0.

Lemma phi_inj ids a b : NoDup ids -> a < length ids -> b < length ids -> phi ids a = phi ids b -> a = b.
Proof. intros H Ha Hb E. apply (proj1 (NoDup_nth ids 0) H); auto. Qed.

Definition table_ok (n : nat) (tab : list (list nat)) : Prop :=
  forall loc, In loc tab -> forall v, In v loc -> v < n.

Lemma vset_phi ids l l' : NoDup ids -> (forall v, In v l -> v < length ids) -> (forall v, In v l' -> v < length ids) ->
  vset (map (phi ids) l) = vset (map (phi ids) l') -> vset l = vset l'.
Proof.
  intros Hn H1 H2 E. apply vset_same in E. apply vset_same. intros x; split; intros Hx.
  - assert (In (phi ids x) (map (phi ids) l')) as Hin by (apply E; apply in_map; auto).
    apply in_map_iff in Hin as (y & Hy & Hyl). apply phi_inj in Hy; auto. subst; auto.
  - assert (In (phi ids x) (map (phi ids) l)) as Hin by (apply E; apply in_map; auto).
    apply in_map_iff in Hin as (y & Hy & Hyl). apply phi_inj in Hy; auto. subst; auto.
Qed.

Lemma NoDup_vset_map ids tab : NoDup ids -> table_ok (length ids) tab ->
  NoDup (map vset tab) -> NoDup (map vset (map (map (phi ids)) tab)).
Proof.
  intros Hn Ht. induction tab as [|l tab IH]; simpl; intros H; [constructor|].
  inversion H as [|? ? H1 H2]; subst. constructor.
  - intros Hin. apply H1. apply in_map_iff in Hin as (l2 & E & Hin). apply in_map_iff in Hin as (l' & <- & Hl').
    apply in_map_iff. exists l'; split; auto. symmetry in E. symmetry.
    apply vset_phi with (ids := ids); auto; apply Ht; simpl; auto.
  - apply IH; auto. intros loc Hloc; apply Ht; simpl; auto.
Qed.

(* ---- closed surfaces ---- *)
Lemma pairs_map {A B} (f : A -> B) l :
  Volume_spec.pairs (map f l) = map (fun '(u, v) => (f u, f v)) (Volume_spec.pairs l).
Proof.
  induction l as [|x l IH]; auto. destruct l as [|y l]; auto.
  change (Volume_spec.pairs (map f (x :: y :: l))) with ((f x, f y) :: Volume_spec.pairs (map f (y :: l))).
  rewrite IH; reflexivity.
Qed.

Lemma ring_map {A B} (f : A -> B) l : ring_edges (map f l) = map (fun '(u, v) => (f u, f v)) (ring_edges l).
Proof.
  destruct l as [|x l]; auto. unfold ring_edges; cbn [map].
  rewrite <- pairs_map. cbn [map]. rewrite map_app; auto.
Qed.

Lemma surface_map ids tab : surface_edges (map (map (phi ids)) tab) =
  map (fun '(u, v) => (phi ids u, phi ids v)) (surface_edges tab).
Proof.
  unfold surface_edges. induction tab as [|l tab IH]; simpl; auto.
  rewrite ring_map, IH, map_app; auto.
Qed.

Definition edges_check (n : nat) (tab : list (list nat)) : bool :=
  let es := surface_edges tab in
  forallb (fun e => (fst e <? n) && (snd e <? n) && (count_occ edge_dec es e =? 1) &&
                    (count_occ edge_dec es (snd e, fst e) =? 1)) es.

Lemma closed_table ids tab : NoDup ids -> edges_check (length ids) tab = true ->
  closed_oriented (map (map (phi ids)) tab).
Proof.
  intros Hn Hc. unfold edges_check in Hc. rewrite forallb_forall in Hc.
  set (es := surface_edges tab) in *.
  set (f := fun e : nat * nat => let '(u, v) := e in (phi ids u, phi ids v)).
  assert (Hr : forall e, In e es -> fst e < length ids /\ snd e < length ids /\
     count_occ edge_dec es e = 1 /\ In (snd e, fst e) es).
  { intros e He. apply Hc in He. rewrite !andb_true_iff in He. destruct He as [[[A B] C] D].
    apply Nat.ltb_lt in A, B. apply Nat.eqb_eq in C, D. repeat split; auto.
    apply (count_occ_In edge_dec). lia. }
  assert (Hinj : forall e e', In e es -> In e' es -> f e = f e' -> e = e').
  { intros [u v] [u' v'] H1 H2 E. apply Hr in H1 as (A & B & _), H2 as (A' & B' & _). simpl in *.
    apply pair_equal_spec in E as [E1 E2]. f_equal; eapply phi_inj; eauto. }
  assert (Hnd : NoDup es).
  { apply (NoDup_count_occ' edge_dec). intros e He; apply Hr; auto. }
  assert (HND : NoDup (map f es)).
  { clear -Hinj Hnd. induction Hnd as [|e es Hin Hnd IH]; simpl; constructor.
    - intros H. apply in_map_iff in H as (e' & E & He'). apply Hin.
      rewrite <- (Hinj e' e); simpl; auto.
    - apply IH. intros; apply Hinj; simpl; auto. }
  assert (Hsym : forall u v, In (u, v) (map f es) -> In (v, u) (map f es)).
  { intros u v H. apply in_map_iff in H as ([a b] & E & He). apply in_map_iff.
    exists (b, a). simpl in E. apply pair_equal_spec in E as [<- <-]. split; auto.
    apply Hr in He; simpl in He; tauto. }
  assert (Hcount : forall e, count_occ edge_dec (map f es) e = if in_dec edge_dec e (map f es) then 1 else 0).
  { intros e. destruct (in_dec edge_dec e (map f es)) as [H|H].
    - apply (proj1 (NoDup_count_occ' edge_dec _) HND); auto.
    - apply count_occ_not_In; auto. }
  intros u v. unfold edge_count. rewrite surface_map. fold es. fold f. rewrite !Hcount.
  destruct (in_dec edge_dec (u, v) (map f es)) as [H|H], (in_dec edge_dec (v, u) (map f es)) as [H'|H']; auto.
  - apply Hsym in H; tauto.
  - apply Hsym in H'; tauto.
Qed.

Lemma table_checks t tab : celltype_to_faces t = Some tab ->
  edges_check (length (vtk_points t)) tab = true /\ table_ok (length (vtk_points t)) tab /\
  NoDup (map vset tab) /\ tab <> [].
Proof.
  intros H. destruct (table_reorder _ _ H) as (Ht & _ & _).
  assert (Hv : forallb (fun loc => forallb (fun v => v <? length (vtk_points t)) loc) tab = true ->
               table_ok (length (vtk_points t)) tab).
  { intros E loc Hl v Hv. rewrite forallb_forall in E. apply E in Hl. rewrite forallb_forall in Hl.
    apply Nat.ltb_lt; auto. }
  simpl in Ht; destruct Ht as [<-|[<-|[<-|[<-|[<-|[]]]]]]; simpl in H; injection H as <-;
    (split; [reflexivity|split; [apply Hv; reflexivity|split; [|discriminate]]]);
    cbv; repeat constructor; simpl; intuition congruence.
Qed.

(* extraction of the faces of a mesh of one linear cell *)
Lemma extract_one nonzero t tab ids : celltype_to_faces t = Some tab -> NoDup ids ->
  length ids = length (vtk_points t) ->
  extract_cell_geometry nonzero false (DCells (mkV [t] [ids] [] [])) =
  Ok (mkGeom (map (map (phi ids)) tab) (map (fun _ => [0%Z]) (map (map (phi ids)) tab))).
Proof.
  intros Ht Hn Hl. destruct (table_checks _ _ Ht) as (Hc & Hok & Hnd & Hne).
  rewrite <- Hl in *.
  assert (Htf : table_faces tab (CIds ids) = Ok (map (map (phi ids)) tab)).
  { unfold table_faces; cbn [ids_of_conn bind]. apply mapM_Ok. clear -Hok.
    induction tab as [|l tab IH]; simpl; constructor.
    - apply fancy_Ok. apply nth_error_in_range. apply Hok; simpl; auto.
    - apply IH. intros loc Hloc; apply Hok; simpl; auto. }
  assert (Hp : get_polydata [map (map (phi ids)) tab] = Ok (mkGeom (map (map (phi ids)) tab)
             (map (fun _ => [0%Z]) (map (map (phi ids)) tab)))).
  { apply polydata_one; [apply NoDup_vset_map; auto|]. destruct tab; [congruence|discriminate]. }
  destruct (table_reorder _ _ Ht) as (Hin & _ & _).
  assert (E42 : (42 =? t) = false /\ (t =? 42) = false /\ dim_of t = Ok 3%Z).
  { simpl in Hin; destruct Hin as [<-|[<-|[<-|[<-|[<-|[]]]]]]; repeat split. }
  destruct E42 as (E1 & E2 & E3).
  unfold extract_cell_geometry, get_dimension, get_cell_connectivity; cbn [v_types v_cells mapM cast].
  rewrite E3; cbn [bind zmax fold_left]. cbn [existsb]. rewrite E1; cbn [orb bind map].
  change ((3 =? 1)%Z || (3 =? 2)%Z) with false. cbv iota.
  unfold cell_faces. cbn [forallb]. rewrite Nat.eqb_refl; cbn [andb]. rewrite E2, Ht. cbn [mapM].
  rewrite Htf; cbn [bind]. rewrite Hp; reflexivity.
Qed.

Theorem one_cell_closed nonzero t ids : In t [10; 11; 12; 13; 14] -> NoDup ids ->
  length ids = length (vtk_points t) ->
  exists g, extract_cell_geometry nonzero false (DCells (mkV [t] [ids] [] [])) = Ok g /\
    closed_oriented (g_faces g).
Proof.
  intros Ht Hn Hl. destruct (faces_of_table t Ht) as (tab & Etab & _).
  destruct (table_checks _ _ Etab) as (Hc & _).
  eexists; split; [apply extract_one; eauto|]. apply closed_table; auto. rewrite Hl; auto.
Qed.

(* ---- outward faces ---- *)
Definition zsub (p q : Z * Z * Z) : Z * Z * Z :=
  let '(x, y, z) := p in let '(x', y', z') := q in (x - x', y - y', z - z')%Z.
Definition zdet (p q r : Z * Z * Z) : Z :=
  let '(a, b, c) := p in let '(d, e, f) := q in let '(g, h, i) := r in
  ((b * f - c * e) * g + (c * d - a * f) * h + (a * e - b * d) * i)%Z.

Lemma det_affine o a b c p q r w :
  det3 (vsub (affine o a b c q) (affine o a b c p)) (vsub (affine o a b c r) (affine o a b c p))
       (vsub (affine o a b c w) (affine o a b c p)) =
  (IZR (zdet (zsub q p) (zsub r p) (zsub w p)) * det3 a b c)%R.
Proof.
  destruct o as [[? ?] ?], a as [[? ?] ?], b as [[? ?] ?], c as [[? ?] ?], p as [[? ?] ?], q as [[? ?] ?],
    r as [[? ?] ?], w as [[? ?] ?].
  unfold det3, vsub, affine, zdet, zsub.
  repeat rewrite ?plus_IZR, ?minus_IZR, ?mult_IZR. ring.
Qed.

Definition outward_check (ref : list (Z * Z * Z)) (tab : list (list nat)) : bool :=
  forallb (fun f => forallb (fun e1 => forallb (fun e2 =>
    if snd e1 =? fst e2 then
      let d := fun w => zdet (zsub (nth (snd e1) ref (0, 0, 0)%Z) (nth (fst e1) ref (0, 0, 0)%Z))
                             (zsub (nth (snd e2) ref (0, 0, 0)%Z) (nth (fst e1) ref (0, 0, 0)%Z))
                             (zsub (nth w ref (0, 0, 0)%Z) (nth (fst e1) ref (0, 0, 0)%Z)) in
      forallb (fun w => (d w <=? 0)%Z) (concat tab) && existsb (fun w => (d w <? 0)%Z) (concat tab)
    else true) (ring_edges f)) (ring_edges f)) tab.

Lemma ring_edges_in {A} (f : list A) u v : In (u, v) (ring_edges f) -> In u f /\ In v f.
Proof.
  rewrite ring_combine. intros H. split; [apply in_combine_l in H; auto|].
  apply in_combine_r in H. destruct f as [|x f]; [inversion H|]. simpl in H.
  apply in_app_or in H as [H|[<-|[]]]; simpl; auto.
Qed.

Theorem one_cell_outward nonzero t ids (P : nat -> vec) o a b c : In t [10; 11; 12; 13; 14] -> NoDup ids ->
  length ids = length (vtk_points t) ->
  (forall k i p, nth_error ids k = Some i -> nth_error (vtk_points t) k = Some p -> P i = affine o a b c p) ->
  (0 < det3 a b c)%R ->
  exists g, extract_cell_geometry nonzero false (DCells (mkV [t] [ids] [] [])) = Ok g /\
    outward P (g_faces g).
Proof.
  intros Ht Hn Hl HP Hdet. destruct (faces_of_table t Ht) as (tab & Etab & _).
  destruct (table_checks _ _ Etab) as (Hc & Hok & _).
  eexists; split; [apply extract_one; eauto|]. cbn [g_faces].
  assert (Hout : outward_check (vtk_points t) tab = true).
  { simpl in Ht; destruct Ht as [<-|[<-|[<-|[<-|[<-|[]]]]]]; simpl in Etab; injection Etab as <-; vm_compute; reflexivity. }
  set (ref := vtk_points t) in *. rewrite <- Hl in Hok.
  assert (HPk : forall k, k < length ids -> P (phi ids k) = affine o a b c (nth k ref (0, 0, 0)%Z)).
  { intros k Hk. apply (HP k); [apply nth_error_nth'; auto|apply nth_error_nth'; lia]. }
  assert (Hflat : concat (map (map (phi ids)) tab) = map (phi ids) (concat tab)) by (symmetry; apply concat_map).
  assert (Hcat : forall w, In w (concat tab) -> w < length ids).
  { intros w Hw. apply in_concat in Hw as (l & Hl1 & Hl2). eapply Hok; eauto. }
  intros f p q r Hf [H1 H2]. apply in_map_iff in Hf as (l & <- & Hin).
  rewrite ring_map in H1, H2. apply in_map_iff in H1 as ([p0 q0] & E1 & H1). apply in_map_iff in H2 as ([q1 r0] & E2 & H2).
  apply pair_equal_spec in E1 as [<- <-]. apply pair_equal_spec in E2 as [E2 <-].
  destruct (ring_edges_in _ _ _ H1) as [Hp0 Hq0]. destruct (ring_edges_in _ _ _ H2) as [Hq1 Hr0].
  assert (q1 = q0) as -> by (eapply phi_inj; eauto).
  unfold outward_check in Hout. rewrite forallb_forall in Hout. specialize (Hout l Hin).
  rewrite forallb_forall in Hout. specialize (Hout _ H1). rewrite forallb_forall in Hout. specialize (Hout _ H2).
  cbn [fst snd] in Hout. rewrite Nat.eqb_refl in Hout. apply andb_true_iff in Hout as [Ha Hb].
  rewrite !HPk by eauto. rewrite Hflat. split.
  - intros w Hw. apply in_map_iff in Hw as (k & <- & Hk). rewrite HPk by auto. rewrite det_affine.
    rewrite forallb_forall in Ha. specialize (Ha k Hk). apply Z.leb_le in Ha. apply IZR_le in Ha.
    rewrite <- (Rmult_0_l (det3 a b c)). apply Rmult_le_compat_r; lra.
  - apply existsb_exists in Hb as (k & Hk & Hb). exists (phi ids k). split; [apply in_map; auto|].
    rewrite HPk by auto. rewrite det_affine. apply Z.ltb_lt in Hb. apply IZR_lt in Hb.
    rewrite <- (Rmult_0_l (det3 a b c)). apply Rmult_lt_compat_r; lra.
Qed.

(* ---- flattened connectivity ---- *)
Lemma take_faces_flat fs rest : take_faces (length fs) (flat_map (fun f => length f :: f) fs ++ rest) = Some (fs, rest).
Proof.
  induction fs as [|f fs IH]; simpl; auto.
  rewrite <- app_assoc.
  assert (length (f ++ flat_map (fun f => length f :: f) fs ++ rest) <? length f = false) as ->.
  { apply Nat.ltb_ge. rewrite app_length; lia. }
  rewrite skipn_app, skipn_all, Nat.sub_diag; cbn [skipn app]. rewrite IH.
  rewrite firstn_app, Nat.sub_diag, firstn_all; cbn [firstn]. rewrite app_nil_r; auto.
Qed.

Lemma flat_cell_decodes t c p : flat_cell t c = Ok p ->
  exists body v, p = length body :: body /\ decode_cell t body = Some v /\ decodes t c v.
Proof.
  unfold flat_cell, decode_cell, decodes. destruct c as [ids|fs]; destruct (t =? 42) eqn:E; try discriminate.
  - destruct ids; [|discriminate]. intros H%Ok_inj; subst. exists [0], (Poly []); auto.
  - intros H%Ok_inj; subst. exists ids, (Plain t ids); auto.
  - intros H%Ok_inj; subst. exists (length fs :: flat_map (fun f => length f :: f) fs), (Poly fs).
    repeat split; auto. rewrite <- (app_nil_r (flat_map _ _)). rewrite take_faces_flat; auto.
Qed.

Theorem flat_decodes m s : wf_mesh m -> get_cell_connectivity_flat m = Ok s ->
  exists vs, decode (v_types m) s = Some vs /\ length vs = length (v_types m) /\
    forall i t v, nth_error (v_types m) i = Some t -> nth_error vs i = Some v ->
      exists c, cell_conn m i c /\ decodes t c v.
Proof.
  intros W H. unfold get_cell_connectivity_flat in H.
  destruct (get_cell_connectivity m) as [cells|] eqn:E; [|discriminate]; cbn [bind] in H.
  destruct (mapM _ (combine cells (v_types m))) as [parts|] eqn:Em; [|discriminate]; cbn [bind] in H.
  apply Ok_inj in H; subst s. destruct (connectivity_Ok m cells W E) as [Hl Hc].
  apply mapM_Ok in Em. clear E W.
  assert (HH : exists vs, decode (v_types m) (concat parts) = Some vs /\ length vs = length (v_types m) /\
    forall i t c v, nth_error (v_types m) i = Some t -> nth_error cells i = Some c -> nth_error vs i = Some v -> decodes t c v).
  { clear Hc. revert cells parts Hl Em. generalize (v_types m). induction l as [|t ts IH]; intros [|c cells] parts Hl Em; try discriminate.
    - inversion Em; subst. exists []; repeat split; auto. intros [|i]; discriminate.
    - inversion Em as [|? p ? parts' Hp Hps]; subst. simpl in Hp.
      destruct (IH cells parts') as (vs & D & L & N); auto.
      destruct (flat_cell_decodes _ _ _ Hp) as (body & v & -> & Dv & Hv).
      exists (v :: vs). split; [|split; [simpl; lia|]].
      + simpl. assert (length (body ++ concat parts') <? length body = false) as ->
          by (apply Nat.ltb_ge; rewrite app_length; lia).
        rewrite firstn_app, Nat.sub_diag, firstn_all; cbn [firstn]. rewrite app_nil_r, Dv.
        rewrite skipn_app, skipn_all, Nat.sub_diag; cbn [skipn app]. rewrite D; auto.
      + intros [|i] t' c' v' H1 H2 H3; simpl in *; [congruence|eauto]. }
  destruct HH as (vs & D & L & N). exists vs; repeat split; auto.
  intros i t v Ht Hv. destruct (nth_error cells i) as [c|] eqn:Ec.
  2:{ apply nth_error_None in Ec. assert (i < length (v_types m)) by (apply nth_error_Some; congruence). lia. }
  exists c; split; eauto.
Qed.

Theorem flat_defined m : wf_mesh m ->
  (forall i t, nth_error (v_types m) i = Some t ->
     exists c, cell_conn m i c /\ (t = 42 <-> exists fs, c = CFaces fs)) ->
  exists s, get_cell_connectivity_flat m = Ok s.
Proof.
  intros W H. unfold get_cell_connectivity_flat.
  destruct (connectivity_def m W) as [cells E].
  { intros i Hi. destruct (nth_error (v_types m) i) as [t|] eqn:Et; [|apply nth_error_None in Et; lia].
    destruct (H i t Et) as (c & Hc & _); eauto. }
  rewrite E; cbn [bind]. destruct (connectivity_Ok m cells W E) as [Hl Hc].
  destruct (mapM_def (fun ct => flat_cell (snd ct) (fst ct)) (combine cells (v_types m))) as [r Hr].
  { intros [c t] Hin. apply in_combine_nth in Hin as (i & Hi & Hj). simpl.
    destruct (H i t Hj) as (c' & Hc' & Hiff). apply Hc in Hi. rewrite (cell_conn_fun _ _ _ _ Hi Hc').
    unfold flat_cell. destruct (t =? 42) eqn:E42.
    - apply Nat.eqb_eq in E42. apply Hiff in E42 as [fs ->]. eauto.
    - apply Nat.eqb_neq in E42. destruct c' as [ids|fs]; eauto. exfalso; apply E42, Hiff; eauto. }
  rewrite Hr; cbn [bind]; eauto.
Qed.

(* ---- dimension ---- *)
Lemma zmax_spec l n : zmax l = Ok n -> In n l /\ forall x, In x l -> (x <= n)%Z.
Proof.
  destruct l as [|x l]; [discriminate|]. simpl. intros H%Ok_inj.
  revert x n H; induction l as [|y l IH]; intros x n H; simpl in *.
  - subst; split; auto. intros z [<-|[]]; lia.
  - destruct (IH _ _ H) as [H1 H2]. split.
    + destruct H1 as [<-|H1]; auto. destruct (Z.max_spec x y) as [[_ ->]|[_ ->]]; auto.
    + intros z [<-|[<-|Hz]]; [| |apply H2; auto].
      * specialize (H2 (Z.max x y) (or_introl eq_refl)); lia.
      * specialize (H2 (Z.max x y) (or_introl eq_refl)); lia.
Qed.

Lemma dim_of_known t : known_type t -> t <> 41 ->
  dim_of t = Ok (match vtk_dimension t with Some k => k | None => (-1)%Z end).
Proof.
  intros H Hne. destruct (Nat.lt_ge_cases t 82) as [Hlt|Hge].
  - assert (Hall : forallb (fun t => (t =? 41) || match dim_of t with
        | Ok d => (d =? match vtk_dimension t with Some k => k | None => -1 end)%Z | Err _ => false end) (seq 0 82) = true)
      by (vm_compute; reflexivity).
    rewrite forallb_forall in Hall. specialize (Hall t). rewrite in_seq in Hall. specialize (Hall ltac:(lia)).
    apply orb_true_iff in Hall as [Hall|Hall]; [apply Nat.eqb_eq in Hall; congruence|].
    destruct (dim_of t); [|discriminate]. apply Z.eqb_eq in Hall; congruence.
  - exfalso. destruct H as [->|H]; [lia|]. apply H.
    do 82 (destruct t as [|t]; [lia|]). reflexivity.
Qed.

Lemma vtk_dim_nonneg t k : vtk_dimension t = Some k -> (0 <= k <= 3)%Z.
Proof.
  unfold vtk_dimension. repeat match goal with |- context [if ?b then _ else _] => destruct b end;
    intros H; try discriminate; injection H as <-; lia.
Qed.

Lemma mapM_dims types : (forall t, In t types -> known_type t) -> ~ In 41 types ->
  mapM dim_of types = Ok (map (fun t => match vtk_dimension t with Some k => k | None => (-1)%Z end) types).
Proof.
  intros H H41. apply mapM_Ok. induction types as [|t ts IH]; simpl; constructor.
  - apply dim_of_known; [apply H; simpl; auto|]. intros ->; apply H41; simpl; auto.
  - apply IH; [intros; apply H; simpl; auto|intros Hin; apply H41; simpl; auto].
Qed.

Theorem dimension_cells m n : (forall t, In t (v_types m) -> known_type t) -> ~ In 41 (v_types m) ->
  (exists t, In t (v_types m) /\ t <> 0) ->
  get_dimension (DCells m) = Ok n <->
  (exists t, In t (v_types m) /\ vtk_dimension t = Some n) /\
  (forall t k, In t (v_types m) -> vtk_dimension t = Some k -> (k <= n)%Z).
Proof.
  intros H H41 (t1 & Ht1 & Hne1). unfold get_dimension. rewrite mapM_dims by auto. cbn [bind].
  set (l := map _ (v_types m)).
  assert (Hbound : forall a, zmax l = Ok a ->
     (exists t, In t (v_types m) /\ vtk_dimension t = Some a) /\
     (forall t k, In t (v_types m) -> vtk_dimension t = Some k -> (k <= a)%Z)).
  { intros a Ha. apply zmax_spec in Ha as [A B].
    assert (Hup : forall t k, In t (v_types m) -> vtk_dimension t = Some k -> (k <= a)%Z).
    { intros t k Ht Hk. apply B. apply in_map_iff. exists t; rewrite Hk; auto. }
    split; auto. apply in_map_iff in A as (t & E & Ht).
    destruct (vtk_dimension t) as [k|] eqn:Ek; [subst; eauto|].
    exfalso. destruct (H t1 Ht1) as [|Hk1]; [congruence|].
    destruct (vtk_dimension t1) as [k1|] eqn:E1; [|congruence].
    specialize (Hup t1 k1 Ht1 E1). apply vtk_dim_nonneg in E1. lia. }
  split; [apply Hbound|].
  intros [(t & Ht & Hk) Hup]. destruct (zmax l) as [a|] eqn:Ea.
  - destruct (Hbound a eq_refl) as [(t' & Ht' & Hk') Hup']. f_equal.
    specialize (Hup _ _ Ht' Hk'). specialize (Hup' _ _ Ht Hk). lia.
  - destruct l as [|x l'] eqn:El; [|discriminate]. subst l. destruct (v_types m); [inversion Ht|discriminate].
Qed.

Theorem dimension_grid dims m : length dims = 3 -> (forall n, In n dims -> 1 <= n) ->
  get_dimension (DGrid dims m) = Ok (Z.of_nat (length (filter (fun n => 1 <? n) dims))).
Proof.
  intros Hl Hp. unfold get_dimension. f_equal.
  assert (E : forall l, (forall n, In n l -> 1 <= n) ->
     length (filter (Nat.eqb 1) l) + length (filter (fun n => 1 <? n) l) = length l).
  { induction l as [|n l IH]; intros H; auto. cbn [filter].
    specialize (IH ltac:(intros; apply H; simpl; auto)). specialize (H n (or_introl eq_refl)).
    destruct (Nat.eqb_spec 1 n), (Nat.ltb_spec 1 n); cbn [length]; lia. }
  specialize (E dims Hp). lia.
Qed.

(* ---- extraction by dimension ---- *)
Lemma mask_get_seq_In mask a i : In i (mask_get mask (seq a (length mask))) <->
  a <= i /\ nth_error mask (i - a) = Some true.
Proof.
  revert a; induction mask as [|b mask IH]; intros a; simpl.
  - split; [tauto|]. intros [_ H]. destruct (i - a); discriminate.
  - assert (HS : (In i (mask_get mask (seq (S a) (length mask)))) <-> S a <= i /\ nth_error (b :: mask) (i - a) = Some true).
    { rewrite IH. split; intros [H1 H2]; (split; [auto|]).
      - replace (i - a) with (S (i - S a)) by lia; auto.
      - replace (i - a) with (S (i - S a)) in H2 by lia; auto. }
    destruct b; simpl; rewrite HS.
    + split.
      * intros [<-|[H1 H2]]; [rewrite Nat.sub_diag; auto|split; auto; lia].
      * intros [H1 H2]. destruct (Nat.eq_dec a i); [auto|right; split; auto; lia].
    + split; [intros [H1 H2]; split; auto; lia|]. intros [H1 H2]. split; auto.
      destruct (Nat.eq_dec a i) as [->|]; [rewrite Nat.sub_diag in H2; discriminate|lia].
Qed.

Lemma mask_get_seq_sorted mask a : StronglySorted lt (mask_get mask (seq a (length mask))).
Proof.
  revert a; induction mask as [|b mask IH]; intros a; simpl; [constructor|].
  destruct b; auto. constructor; auto. apply Forall_forall. intros i Hi.
  apply mask_get_seq_In in Hi as [Hi _]; lia.
Qed.

Lemma seq_sorted a n : StronglySorted lt (seq a n).
Proof.
  revert a; induction n as [|n IH]; intros a; simpl; constructor; auto.
  apply Forall_forall; intros i Hi; apply in_seq in Hi; lia.
Qed.

Lemma all_or_mask mask n : n = length mask ->
  let ids := if forallb (fun b => b) mask then seq 0 n else mask_ids mask in
  StronglySorted lt ids /\ forall i, In i ids <-> nth_error mask i = Some true.
Proof.
  intros ->. cbv zeta. destruct (forallb (fun b => b) mask) eqn:E.
  - split; [apply seq_sorted|]. intros i. rewrite in_seq. rewrite forallb_forall in E. split.
    + intros [_ Hi]. destruct (nth_error mask i) as [b|] eqn:Eb; [|apply nth_error_None in Eb; lia].
      rewrite (E b); auto. eapply nth_error_In; eauto.
    + intros H. split; [lia|]. apply nth_error_Some; congruence.
  - unfold mask_ids. split; [apply mask_get_seq_sorted|]. intros i. rewrite mask_get_seq_In, Nat.sub_0_r.
    split; [tauto|]. intros; split; auto; lia.
Qed.

Theorem extraction_spec d ndim method keep n : let m := cast d in
  (forall t, In t (v_types m) -> known_type t) -> ~ In 41 (v_types m) ->
  ndim = Some n \/ (ndim = None /\ get_dimension (DCells m) = Ok n) ->
  method = "upper"%string \/ method = "lower"%string ->
  exists ids, extract_cells_by_dimension d ndim method keep = Ok ids /\ StronglySorted lt ids /\
    forall i, In i ids <-> exists t, nth_error (v_types m) i = Some t /\
      ((if String.eqb method "upper" then n <= dim_or_empty t else dim_or_empty t <= n)%Z \/ (keep = true /\ t = 0)).
Proof.
  intros m H H41 Hn Hm. unfold extract_cells_by_dimension. fold m.
  assert ((match ndim with Some n => Ok n | None => get_dimension (DCells m) end) = Ok n) as ->.
  { destruct Hn as [->|[-> Hn]]; auto. }
  cbn [bind]. rewrite mapM_dims by auto. cbn [bind].
  set (ok := fun t => if String.eqb method "upper" then (n <=? dim_or_empty t)%Z else (dim_or_empty t <=? n)%Z).
  assert (Hmask : (if String.eqb method "upper"
     then Ok (map (fun x => (n <=? x)%Z) (map (fun t => match vtk_dimension t with Some k => k | None => (-1)%Z end) (v_types m)))
     else if String.eqb method "lower" then Ok (map (fun x => (x <=? n)%Z) (map (fun t => match vtk_dimension t with Some k => k | None => (-1)%Z end) (v_types m)))
     else Err ValueError) = Ok (map ok (v_types m))).
  { unfold ok. rewrite !map_map. destruct Hm as [-> | ->]; reflexivity. }
  rewrite Hmask; cbn [bind]. clear Hmask.
  assert (Hk : (if keep then map2 orb (map ok (v_types m)) (map (Nat.eqb 0) (v_types m)) else map ok (v_types m)) =
     map (fun t => ok t || (keep && (0 =? t))) (v_types m)).
  { destruct keep.
    - clear. induction (v_types m) as [|t ts IH]; simpl; f_equal; auto.
    - apply map_ext; intros t. simpl; rewrite orb_false_r; auto. }
  rewrite Hk. set (mask := map _ (v_types m)).
  assert (Hlen : length (v_types m) = length mask) by (unfold mask; rewrite map_length; auto).
  destruct (all_or_mask mask (length (v_types m)) Hlen) as [Hs Hi]. cbv zeta in Hs, Hi.
  exists (if forallb (fun b => b) mask then seq 0 (length (v_types m)) else mask_ids mask).
  split; [destruct (forallb (fun b => b) mask); auto|]. split; auto.
  intros i. rewrite Hi. unfold mask. rewrite nth_error_map.
  destruct (nth_error (v_types m) i) as [t|]; simpl.
  2:{ split; [discriminate|intros (t & Ht & _); discriminate]. }
  assert (Hok : ok t = true <-> (if String.eqb method "upper" then n <= dim_or_empty t else dim_or_empty t <= n)%Z).
  { unfold ok. destruct (String.eqb method "upper"); apply Z.leb_le. }
  split.
  - intros [= E]. exists t; split; auto. apply orb_true_iff in E as [E|E]; [left; apply Hok; auto|right].
    apply andb_true_iff in E as [-> E]. destruct t; [auto|discriminate].
  - intros (t' & [= <-] & [E|[-> ->]]); f_equal; apply orb_true_iff; [left; apply Hok; auto|right; auto].
Qed.

Theorem extraction_rejects d ndim method keep : method <> "upper"%string -> method <> "lower"%string ->
  (forall t, In t (v_types (cast d)) -> known_type t) -> ~ In 41 (v_types (cast d)) ->
  extract_cells_by_dimension d ndim method keep = Err ValueError.
Proof.
  intros H1 H2 H H41. unfold extract_cells_by_dimension.
  apply String.eqb_neq in H1, H2. rewrite H1, H2.
  destruct ndim as [n|]; auto. unfold get_dimension. rewrite mapM_dims by auto. cbn [bind].
  destruct (v_types (cast d)) as [|t ts]; auto.
Qed.
