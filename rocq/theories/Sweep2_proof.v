From Verif Require Import RealAux Perc_model Perc_spec Perc_proof Surface_model Surface_spec Volume_model Volume_spec
  SMerge_model Groups_model Groups_spec Groups_proof Groups2_proof Gen_proof Stack_model Stack_spec Stack3_proof Final_model Final_spec
  Unstr_model Unstr_spec Unstr3_proof Topo_model Paint_proof Sweep_spec Sweep_proof Sweep2_model Sweep2_spec.
From Coq Require Import Lra.
Open Scope nat_scope.

Lemma initialize_usable o (mesh : gmesh nat) g grp : usable_group mesh grp ->
  exists x, initialize_group_array o mesh g grp "" = Ok x.
Proof.
  intros H. destruct grp as [|s|d]; [apply initialize_total; auto|apply initialize_total; eauto|]. specialize (H d eq_refl).
  unfold initialize_group_array.
  set (ag := match gm_cg mesh with Some _ => _ | None => _ end).
  assert (Hlen : length (fst ag) = length (gm_cells mesh)).
  { unfold ag. destruct (gm_cg mesh) as [cg|]; [destruct (gm_labels mesh) as [lb|]|];
      cbn [fst]; rewrite ?repeat_length; auto.
    assert (L : forall labels arr g, length (fst (apply_labels cg (ignore_groups o) labels arr g)) = length arr).
    { induction labels as [|[k v] l IH]; intros arr g0; simpl; auto.
      destruct (mem _ _); [apply IH|]. destruct (get_group_number k g0). rewrite IH, mask_set_length; auto. }
    rewrite L, repeat_length; auto. }
  destruct ag as [arr g1]. cbn [fst] in Hlen.
  assert (exists x, apply_entries mesh d arr g1 = Ok x) as [[arr2 g2] E].
  { revert arr g1 Hlen. induction d as [|[k sel] d IH]; intros arr g1 Hlen; cbn [apply_entries]; [eauto|].
    destruct (H (k, sel) (or_introl eq_refl)) as (b & Lb & Hs). cbn [snd] in Hs.
    assert (selector_mask mesh g1 sel = Ok (MBool b)) as ->.
    { destruct Hs as [->|(f & -> & Ef)]; cbn [selector_mask]; [reflexivity|]. now rewrite Ef. }
    cbn [bind]. assert (IH' : forall arr g, length arr = length (gm_cells mesh) -> exists x, apply_entries mesh d arr g = Ok x).
    { intros. apply IH; auto. intros e He. apply H. now right. }
    destruct (tilde k); destruct (get_group_number _ _) as [n g2]; cbn [np_not np_set]; rewrite ?map_length, Lb, Hlen, Nat.eqb_refl;
      cbn [bind]; apply IH'; now rewrite mask_set_length. }
  rewrite E; cbn [bind]. destruct (existsb _ _); [|eauto]. destruct (get_group_number _ _). eauto.
Qed.

Section Sweep.
Context {D : Type} (num : Z -> D).

(* the base mesh moved by w *)
Definition uat (w : R * R * R) (m : ubase D) : ubase D := setp (uops num) (map (vshift w) (us_pts (ub_surf m))) m.

Lemma uat_wf w m : wf_ubase m -> wf_ubase (uat w m).
Proof. intros (H1 & H2 & H3). split; [exact H1|]. split; [exact H2|]. cbn. rewrite map_length. exact H3. Qed.
Lemma uat_regular w m np types : regular_ubase np types m -> regular_ubase np types (uat w m).
Proof.
  intros (H1 & H2 & H3 & H4 & H5 & H6 & H7 & H8). split; [now apply uat_wf|]. split; [exact H2|]. split; [cbn; rewrite map_length; exact H3|].
  split; [exact H4|]. split; [exact H5|]. split; [exact H6|]. split; [exact H7|exact H8].
Qed.

Definition uitem (w : R * R * R) (m : ubase D) (c : ex_call) : item (ubase D) :=
  mkItem (uat w m) (ec_res c) (ec_method c) 0%Z 0 (ec_group c) false.
Fixpoint uitems (w : R * R * R) (m : ubase D) (l : list (ex_call * (R * R * R))) : list (item (ubase D)) :=
  match l with
  | [] => []
  | (c, v) :: l' => uitem (vshift v w) m c :: uitems (vshift v w) m l'
  end.

Lemma uat_again v w m : setp (uops num) (map (vshift v) (us_pts (ub_surf (uat w m)))) (uat w m) = uat (vshift v w) m.
Proof.
  unfold uat. cbn [setp uops ub_surf us_pts us_cells us_pd us_cd us_ghost ub_cg ub_labels].
  rewrite map_map. do 2 f_equal. apply map_ext. intros p. apply vshift_vshift.
Qed.

Lemma ucalls_items m : forall l w pre last, it_mesh last = uat w m ->
  Forall (fun cv => exists perc, shifts_by (fst cv) (snd cv) perc) l ->
  extrude_ucalls num None None (pre ++ [last]) (map fst l) = Ok (pre ++ last :: uitems w m l).
Proof.
  induction l as [|[c v] l IH]; intros w pre last El HF; [reflexivity|].
  inversion HF as [|? ? [n Hm] HF']; subst. cbn [fst snd] in Hm. destruct v as [[vx vy] vz].
  destruct Hm as (Ev & Es & Ea & _). cbn [map fst extrude_ucalls].
  unfold extrude_ucall. rewrite rev_app_distr. cbn [rev app]. rewrite Ev, Es, Ea. unfold extrude_add. cbn [bind].
  rewrite El. cbn [getp uops].
  rewrite (map_ext _ (vshift (vx, vy, vz)) (fun p => vshift_add p vx vy vz)), uat_again.
  fold (uitem (vshift (vx, vy, vz) w) m c).
  rewrite (IH (vshift (vx, vy, vz) w) (pre ++ [last]) (uitem (vshift (vx, vy, vz) w) m c) eq_refl HF'). rewrite <- app_assoc. reflexivity.
Qed.

Lemma uitems_nth m : forall l w j b, nth_error (uitems w m l) j = Some b ->
  exists c v, nth_error l j = Some (c, v) /\ b = uitem (vshift (vsum (firstn (S j) (map snd l))) w) m c.
Proof.
  induction l as [|[c v] l IH]; intros w [|j] b; cbn [uitems nth_error]; try discriminate.
  - intros E. injection E as <-. exists c, v. split; [reflexivity|]. f_equal.
    cbn [map snd firstn]. rewrite vsum_cons. cbn [vsum fold_right]. now rewrite vshift_0.
  - intros E. destruct (IH _ _ _ E) as (c' & v' & E1 & E2). exists c', v'. split; [exact E1|]. rewrite E2. f_equal.
    cbn [map snd]. rewrite firstn_cons, vsum_cons, vshift_vshift. reflexivity.
Qed.
Lemma uitems_len m : forall l w, length (uitems w m l) = length l.
Proof. induction l as [|[c v] l IH]; intros w; cbn; auto. Qed.
Lemma uitems_all m l w (P : item (ubase D) -> Prop) :
  (forall w c v, In (c, v) l -> P (uitem w m c)) -> Forall P (uitems w m l).
Proof.
  revert w. induction l as [|[c v] l IH]; intros w H; constructor.
  - apply (H _ _ v). now left.
  - apply IH. intros w' c' v' Hin. apply (H _ _ v'). now right.
Qed.
End Sweep.

Section Program.
Context {D : Type} (num : Z -> D) (int : D -> Z) (Hint : forall z, int (num z) = z).
Context (o : options) (tol : R) (clean : uvol D -> uvol D) (Hclean : cleans tol clean).
Context (pvmerge : list (uvol D) -> res (uvol D)) (Hmerge : appends pvmerge).
Context (m : ubase D) (Hw : wf_ubase m).
Context (calls : list ex_call) (vs : list (R * R * R)) (percs : list (list R)) (Hmv : shifts calls vs percs).

Definition usweep : list (item (ubase D)) :=
  mkItem (uat num (0, 0, 0)%R m) ResNone None 0%Z 0 GNone false :: uitems num (0, 0, 0)%R m (combine calls vs).

Lemma uat_0 : uat num (0, 0, 0)%R m = m.
Proof.
  unfold uat. destruct m as [[pp cc pd cd gh] cg lb]. cbn. do 2 f_equal. rewrite <- (map_id pp) at 2. apply map_ext. apply vshift_0.
Qed.

Lemma ucall_at j c : nth_error calls j = Some c -> exists v perc, nth_error vs j = Some v /\ nth_error percs j = Some perc /\ shifts_by c v perc.
Proof.
  intros Hc. destruct Hmv as (Lv & Ln & HM). assert (Hj : j < length calls) by (apply nth_error_Some; congruence).
  destruct (nth_error vs j) as [v|] eqn:Ev; [|apply nth_error_None in Ev; lia].
  destruct (nth_error percs j) as [n|] eqn:En; [|apply nth_error_None in En; lia].
  exists v, n. eauto.
Qed.
Lemma in_ucalls c v : In (c, v) (combine calls vs) -> exists perc, shifts_by c v perc.
Proof.
  intros Hin. apply In_nth_error in Hin as [j Hj]. apply combine_nth_some in Hj as [Hc Hv].
  destruct (ucall_at j c Hc) as (v' & n & Hv' & Hn & Hm). rewrite Hv in Hv'. injection Hv' as <-. eauto.
Qed.

Definition flat : Prop := forall ty ids, In (ty, ids) (us_cells (ub_surf m)) -> In ty [5; 7; 8; 9].

Lemma flat_dim : us_cells (ub_surf m) <> [] -> flat -> get_dimension (DCells (mkV (map fst (us_cells (ub_surf m))) [] [] [])) = Ok 2%Z.
Proof.
  intros Hne Hf. cbn [get_dimension v_types].
  assert (E : forall l : list (nat * list nat), (forall ty ids, In (ty, ids) l -> In ty [5; 7; 8; 9]) -> mapM dim_of (map fst l) = Ok (map (fun _ => 2%Z) l)).
  { induction l as [|[ty ids] l IH]; intros H; cbn [map fst mapM]; [reflexivity|]. rewrite IH by (intros; eapply H; right; eauto).
    pose proof (H ty ids (or_introl eq_refl)) as Ht. cbn in Ht. destruct Ht as [<-|[<-|[<-|[<-|[]]]]]; reflexivity. }
  rewrite (E _ Hf). cbn [bind]. destruct (us_cells (ub_surf m)) as [|x l]; [contradiction|]. cbn [map zmax]. f_equal.
  clear. induction l as [|y l IH]; cbn [map fold_left]; [reflexivity|exact IH].
Qed.

Lemma ucalls_run : extrude_ucalls num None None [mkItem m ResNone None 0%Z 0 GNone false] calls = Ok usweep.
Proof.
  pose proof (ucalls_items num m (combine calls vs) (0, 0, 0)%R [] (mkItem m ResNone None 0%Z 0 GNone false)) as H.
  cbn [app] in H. destruct Hmv as (Lv & Ln & HM). rewrite (Groups2_proof.map_fst_combine _ _ Lv) in H. rewrite H.
  - unfold usweep. now rewrite uat_0.
  - cbn. symmetry. apply uat_0.
  - rewrite Forall_forall. intros [c v] Hin. destruct (in_ucalls c v Hin) as (perc & Hp). exists perc. exact Hp.
Qed.

Lemma uprogram_items : us_cells (ub_surf m) <> [] -> flat ->
  extrude_uprogram num int o pvmerge clean None None m calls = extrude_umesh num int o pvmerge clean usweep.
Proof.
  intros Hne Hf. unfold extrude_uprogram, extrude_uinit. rewrite (flat_dim Hne Hf). cbn [bind Z.eqb Pos.eqb negb].
  rewrite ucalls_run. reflexivity.
Qed.
(* whatever the mesh, an outcome is that of the items *)
Lemma uprogram_inv g labels : extrude_uprogram num int o pvmerge clean None None m calls = Ok (g, labels) ->
  extrude_umesh num int o pvmerge clean usweep = Ok (g, labels).
Proof.
  unfold extrude_uprogram, extrude_uinit. destruct (get_dimension _) as [dim|]; [|discriminate]. cbn [bind].
  destruct (negb _); [discriminate|]. cbn [bind]. rewrite ucalls_run. auto.
Qed.

Lemma usweep_nth j b : nth_error usweep (S j) = Some b ->
  exists c v perc, nth_error calls j = Some c /\ nth_error vs j = Some v /\ nth_error percs j = Some perc /\ shifts_by c v perc /\
    b = uitem num (vsum (firstn (S j) vs)) m c.
Proof.
  cbn [usweep nth_error]. intros E. apply uitems_nth in E as (c & v & E & ->).
  destruct Hmv as (Lv & Ln & HM). rewrite (Groups2_proof.map_snd_combine _ _ Lv). apply combine_nth_some in E as [Hc Hv].
  destruct (ucall_at j c Hc) as (v' & n & Hv' & Hn & Hm). rewrite Hv in Hv'. injection Hv' as <-.
  exists c, v, n. repeat (split; [assumption|]). f_equal.
  destruct (vsum (firstn (S j) vs)) as [[? ?] ?]. unfold vshift. f_equal; [f_equal|]; ring.
Qed.
Lemma usweep_mesh j a : nth_error usweep j = Some a -> it_mesh a = uat num (vsum (firstn j vs)) m.
Proof.
  destruct j as [|j]; intros E; [injection E as <-; reflexivity|].
  destruct (usweep_nth j a E) as (c & v & n & _ & _ & _ & _ & ->). reflexivity.
Qed.
Lemma usweep_some j : j < S (length calls) -> exists a, nth_error usweep j = Some a.
Proof.
  intros Hj. destruct (nth_error usweep j) as [a|] eqn:E; [eauto|]. apply nth_error_None in E. unfold usweep in E.
  cbn [length] in E. rewrite uitems_len, combine_length in E. destruct Hmv as (Lv & _). lia.
Qed.
Lemma usweep_wf : Forall (fun i => wf_ubase (it_mesh i)) usweep.
Proof. constructor; [apply uat_wf; exact Hw|]. apply uitems_all. intros w c v _. apply uat_wf. exact Hw. Qed.
Lemma usweep_trans : Forall (fun it => it_trans it = false) (tl usweep).
Proof. apply uitems_all. reflexivity. Qed.

Lemma usweep_counts nsubs : layer_counts (tl usweep) nsubs -> nsubs = map (fun p => length p - 1) percs.
Proof.
  intros [L HC]. apply nth_error_ext. intros j. rewrite nth_error_map. cbn [tl usweep] in L. rewrite uitems_len, combine_length in L.
  destruct Hmv as (Lv & Lp & _).
  destruct (nth_error (tl usweep) j) as [b|] eqn:Eb.
  - destruct (HC j b Eb) as (n & En & perc & Hp & ->). destruct (usweep_nth j b Eb) as (c & v & perc' & _ & _ & Ep & (_ & _ & _ & Hp' & _) & ->).
    cbn in Hp. rewrite Hp' in Hp. apply Ok_inj in Hp. subst perc'. rewrite En, Ep. reflexivity.
  - apply nth_error_None in Eb. cbn [tl usweep] in Eb. rewrite uitems_len, combine_length in Eb.
    rewrite (proj2 (nth_error_None nsubs j)), (proj2 (nth_error_None percs j)); auto; lia.
Qed.

Lemma placed_columns place : placed usweep (map (fun p => length p - 1) percs) place -> columns (length (us_cells (ub_surf m))) percs place.
Proof.
  intros [HN HP]. split; [exact HN|]. intros j l c. rewrite HP. split.
  - intros (n & a & Hn & Ha & Hl & Hc). rewrite nth_error_map in Hn. destruct (nth_error percs j) as [perc|]; [|discriminate]. injection Hn as <-.
    exists perc. split; [reflexivity|]. split; [lia|]. unfold n_base in Hc. rewrite (usweep_mesh j a Ha) in Hc. exact Hc.
  - intros (perc & Hp & Hl & Hc). destruct Hmv as (Lv & Lp & _).
    assert (Hj : j < length calls) by (rewrite <- Lp; apply nth_error_Some; congruence).
    destruct (usweep_some j ltac:(lia)) as [a Ha]. exists (length perc - 1), a. rewrite nth_error_map, Hp. split; [reflexivity|]. split; [exact Ha|].
    split; [lia|]. unfold n_base. rewrite (usweep_mesh j a Ha). exact Hc.
Qed.

Lemma vsum_next j v : nth_error vs j = Some v -> vsum (firstn (S j) vs) = vshift (vsum (firstn j vs)) v.
Proof.
  clear. revert j. induction vs as [|u l IH]; intros [|j] Hv; try discriminate.
  - injection Hv as ->. cbn [firstn]. rewrite vsum_cons. reflexivity.
  - cbn [nth_error] in Hv. rewrite !firstn_cons, !vsum_cons, (IH j Hv).
    destruct (vsum (firstn j l)) as [[? ?] ?], u as [[? ?] ?], v as [[? ?] ?]. unfold vshift. f_equal; [f_equal|]; ring.
Qed.

Context (g : uvol D) (labels : dict) (H : extrude_uprogram num int o pvmerge clean None None m calls = Ok (g, labels)).

Lemma usweep_all : exists place cells cg names,
  columns (length (us_cells (ub_surf m))) percs place /\
  identified num "ExtrudeItem" (map (fun p => length p - 1) percs) place g /\
  cells_of g cells /\ length cells = length place /\
  (forall i j l c, nth_error place i = Some (j, l, c) ->
    exists base cell f v perc, nth_error (us_cells (ub_surf m)) c = Some base /\ nth_error vs j = Some v /\ nth_error percs j = Some perc /\
      extruded true (length (us_pts (ub_surf m))) l base cell /\ nth_error cells i = Some (rename f cell) /\
      forall u h t p, In u (snd base) -> h <= 1 -> nth_error perc (l + h) = Some t -> nth_error (us_pts (ub_surf m)) u = Some p ->
        exists r, nth_error (uv_pts g) (f (u + (l + h) * length (us_pts (ub_surf m)))) = Some r /\ within tol (shifted p vs j v t) r) /\
  numbered labels /\ NoDup (map fst (uv_cd g)) /\ In ("CellGroup"%string, cg) (uv_cd g) /\
  get_cell_group (Some (map int cg)) (Some labels) = Ok (Some (inl names)) /\ length names = length place /\
  (forall k, In k (map fst labels) <-> In k names) /\
  (forall i j l c, nth_error place i = Some (j, l, c) ->
    exists call k, nth_error calls j = Some call /\ nth_error names i = Some k /\ item_name o (ubase_view m) (ec_group call) c k) /\
  ughosts_follow usweep place g /\
  (uv_ghost g = [] \/ length (uv_ghost g) = length place /\ exists i, i < length place /\ flag_of (uv_ghost g) i <> 0) /\
  (forall i j l c, nth_error place i = Some (j, l, c) ->
     exists base v perc, nth_error (us_cells (ub_surf m)) c = Some base /\ nth_error vs j = Some v /\ nth_error percs j = Some perc /\
       (thin (us_pts (ub_surf m)) vs j v perc base -> flag_of (uv_ghost g) i = 32) /\
       (~ thin (us_pts (ub_surf m)) vs j v perc base -> flag_of (uv_ghost g) i =
          match us_ghost (ub_surf m) with Some gh => flag_of gh c | None => 0 end)) /\
  (forall k, ~ In k ["ColumnId"; "LayerId"; "ExtrudeItem"; "CellGroup"]%string ->
     (In k (map fst (uv_cd g)) <-> In k (map fst (us_cd (ub_surf m))))) /\
  forall k x, In (k, x) (uv_cd g) -> ~ In k ["ColumnId"; "LayerId"; "ExtrudeItem"; "CellGroup"]%string ->
    length x = length place /\ exists w, In (k, w) (us_cd (ub_surf m)) /\
    forall i j l c, nth_error place i = Some (j, l, c) -> nth_error x i = nth_error w c.
Proof.
  pose proof (uprogram_inv g labels H) as H'.
  destruct (extrude_umesh_final num int Hint o tol clean Hclean pvmerge Hmerge usweep g labels usweep_wf usweep_trans H')
    as (nsubs & place & HL & HP & HI & (cells & Hc & Lc & HC) & (Hn & Hnd & cg & names & Hcg & Hgn & Ln & Hkk & HG) & [HG0 HG'] & [HK HV]).
  apply usweep_counts in HL. subst nsubs. exists place, cells, cg, names.
  split; [now apply placed_columns|]. split; [exact HI|]. split; [exact Hc|]. split; [exact Lc|]. split; [|split; [exact Hn|split; [exact Hnd|split; [exact Hcg|split; [exact Hgn|split; [exact Ln|split; [exact Hkk|split; [|split; [exact (conj HG0 HG')|split; [exact HG0|split; [|split]]]]]]]]]]].
  - intros i j l c Hi. destruct (HC i j l c Hi) as (a & b & perc & base & cell & f & Ha & Hb & Hp & Hbase & Hx & Hcell & HQ).
    destruct (usweep_nth j b Hb) as (call & v & perc' & _ & Hv & Hperc & (_ & _ & _ & Hp' & _) & Eb).
    assert (perc' = perc) by (rewrite Eb in Hp; cbn in Hp; rewrite Hp' in Hp; apply Ok_inj in Hp; auto). subst perc'.
    assert (Ea := usweep_mesh j a Ha). assert (Eb' := usweep_mesh (S j) b Hb).
    rewrite Ea in Hbase, Hx, HQ. rewrite Eb' in HQ. cbn [uat setp uops ub_surf us_cells us_pts] in *. rewrite map_length in *.
    exists base, cell, f, v, perc. repeat (split; [assumption|]).
    intros u h t p Hu Hh Ht Hpt.
    destruct (HQ u h t (vshift (vsum (firstn j vs)) p) (vshift (vsum (firstn (S j) vs)) p) Hu Hh Ht) as (r & Hr & Hwi);
      [rewrite nth_error_map, Hpt; reflexivity|rewrite nth_error_map, Hpt; reflexivity|].
    exists r. split; [exact Hr|]. rewrite (vsum_next j v Hv) in Hwi. unfold shifted.
    destruct p as [[x y] z], v as [[vx vy] vz], (vsum (firstn j vs)) as [[e1 e2] e3]. cbn [vshift] in Hwi.
    replace (x + e1 + t * vx, y + e2 + t * vy, z + e3 + t * vz)%R with
      (x + e1 + t * (x + (vx + e1) - (x + e1)), y + e2 + t * (y + (vy + e2) - (y + e2)), z + e3 + t * (z + (vz + e3) - (z + e3)))%R; [exact Hwi|].
    apply injective_projections; [apply injective_projections|]; cbn [fst snd]; ring.
  - intros i j l c Hi. destruct (HG i j l c Hi) as (a & b & k & Ha & Hb & Hki & Hnm).
    destruct (usweep_nth j b Hb) as (call & v & perc & Hcall & _ & _ & _ & ->). exists call, k. split; [exact Hcall|]. split; [exact Hki|].
    rewrite (usweep_mesh j a Ha) in Hnm. exact Hnm.
  - intros i j l c Hi. destruct (HG' i j l c Hi) as (a & b & perc & base & Ha & Hb & Hp & Hbase & F1 & F2).
    destruct (usweep_nth j b Hb) as (call & v & perc' & _ & Hv & Hperc & (_ & _ & _ & Hp' & _) & Eb).
    assert (perc' = perc) by (rewrite Eb in Hp; cbn in Hp; rewrite Hp' in Hp; apply Ok_inj in Hp; auto). subst perc'.
    assert (Ea := usweep_mesh j a Ha). assert (Eb' := usweep_mesh (S j) b Hb).
    rewrite Ea in Hbase, F2. cbn [uat setp uops ub_surf us_cells us_ghost] in Hbase, F2.
    exists base, v, perc. repeat (split; [assumption|]).
    assert (HT : thin (us_pts (ub_surf m)) vs j v perc base <-> flat_first a b perc base).
    { pose proof (vsum_next j v Hv) as EV. revert EV Eb'. generalize (vsum (firstn (S j) vs)). intros w' EV Eb'.
      unfold thin, flat_first. rewrite Ea, Eb'. cbn [uat setp uops ub_surf us_pts]. split.
      - intros HT u t t' p q Hu Ht Ht' Hpa Hqb. rewrite nth_error_map in Hpa, Hqb.
        destruct (nth_error (us_pts (ub_surf m)) u) as [p0|] eqn:E0; [|discriminate]. injection Hpa as <-. injection Hqb as <-.
        specialize (HT u t t' p0 Hu Ht Ht' E0). rewrite EV. unfold shifted in HT.
        destruct p0 as [[x y] z], v as [[vx vy] vz], (vsum (firstn j vs)) as [[e1 e2] e3]. cbn [vshift].
        match goal with |- near ?A ?B => replace A with (x + e1 + t * vx, y + e2 + t * vy, z + e3 + t * vz)%R;
          [replace B with (x + e1 + t' * vx, y + e2 + t' * vy, z + e3 + t' * vz)%R; [exact HT|]|] end;
          unfold vline; apply injective_projections; [apply injective_projections| |apply injective_projections|]; cbn [fst snd]; ring.
      - intros HT u t t' p0 Hu Ht Ht' E0.
        specialize (HT u t t' (vshift (vsum (firstn j vs)) p0) (vshift w' p0) Hu Ht Ht').
        rewrite !nth_error_map, E0 in HT. specialize (HT eq_refl eq_refl). rewrite EV in HT. unfold shifted.
        destruct p0 as [[x y] z], v as [[vx vy] vz], (vsum (firstn j vs)) as [[e1 e2] e3]. cbn [vshift] in HT.
        match type of HT with near ?A ?B => replace A with (x + e1 + t * vx, y + e2 + t * vy, z + e3 + t * vz)%R in HT;
          [replace B with (x + e1 + t' * vx, y + e2 + t' * vy, z + e3 + t' * vz)%R in HT; [exact HT|]|] end;
          unfold vline; apply injective_projections; [apply injective_projections| |apply injective_projections|]; cbn [fst snd]; ring. }
    split; [intros E; apply F1, HT, E|]. intros E. apply F2. intros E'. apply E, HT, E'.
  - intros k Hk. rewrite HK. split.
    + intros [E|E]; [destruct (Hk E)|]. destruct (usweep_some 0 ltac:(lia)) as [a Ha].
      destruct (Nat.eq_dec (length calls) 0) as [E0|E0].
      * exfalso. unfold extrude_umesh, extrude_unstructured in H'. unfold usweep in H'. destruct calls; [|discriminate]. cbn in H'. discriminate.
      * destruct (usweep_some 1 ltac:(lia)) as [b Hb]. specialize (E 0 a b Ha Hb). rewrite (usweep_mesh 0 a Ha) in E. exact E.
    + intros E. right. intros j a b Ha _. rewrite (usweep_mesh j a Ha). exact E.
  - intros k x Hx Hk. destruct (HV k x Hx Hk) as [Lx HX]. split; [exact Lx|].
    assert (HW : exists w, In (k, w) (us_cd (ub_surf m))).
    { destruct (proj1 (HK k) (in_map fst _ _ Hx)) as [E|E]; [destruct (Hk E)|].
      destruct (Nat.eq_dec (length calls) 0) as [E0|E0].
      * exfalso. unfold extrude_umesh, extrude_unstructured in H'. unfold usweep in H'. destruct calls; [|discriminate]. cbn in H'. discriminate.
      * destruct (usweep_some 0 ltac:(lia)) as [a Ha]. destruct (usweep_some 1 ltac:(lia)) as [b Hb]. specialize (E 0 a b Ha Hb).
        rewrite (usweep_mesh 0 a Ha) in E. cbn in E. apply in_map_iff in E as ([k' w] & <- & E). exists w. exact E. }
    destruct HW as [w HW]. exists w. split; [exact HW|]. intros i j l c Hi. destruct (HX i j l c Hi) as (a & w' & Ha & Hw' & E).
    rewrite (usweep_mesh j a Ha) in Hw'. cbn in Hw'. rewrite E. f_equal. destruct Hw as (_ & HN & _).
    exact (Unstr1_proof.NoDup_fst_fun _ _ _ _ HN Hw' HW).
Qed.
Lemma usweep_final : exists place cells cg names,
  columns (length (us_cells (ub_surf m))) percs place /\
  identified num "ExtrudeItem" (map (fun p => length p - 1) percs) place g /\
  cells_of g cells /\ length cells = length place /\
  (forall i j l c, nth_error place i = Some (j, l, c) ->
    exists base cell f v perc, nth_error (us_cells (ub_surf m)) c = Some base /\ nth_error vs j = Some v /\ nth_error percs j = Some perc /\
      extruded true (length (us_pts (ub_surf m))) l base cell /\ nth_error cells i = Some (rename f cell) /\
      forall u h t p, In u (snd base) -> h <= 1 -> nth_error perc (l + h) = Some t -> nth_error (us_pts (ub_surf m)) u = Some p ->
        exists r, nth_error (uv_pts g) (f (u + (l + h) * length (us_pts (ub_surf m)))) = Some r /\ within tol (shifted p vs j v t) r) /\
  numbered labels /\ NoDup (map fst (uv_cd g)) /\ In ("CellGroup"%string, cg) (uv_cd g) /\
  get_cell_group (Some (map int cg)) (Some labels) = Ok (Some (inl names)) /\ length names = length place /\
  (forall k, In k (map fst labels) <-> In k names) /\
  (forall i j l c, nth_error place i = Some (j, l, c) ->
    exists call k, nth_error calls j = Some call /\ nth_error names i = Some k /\ item_name o (ubase_view m) (ec_group call) c k) /\
  ughosts_follow usweep place g.
Proof.
  destruct usweep_all as (place & cells & cg & names & A1 & A2 & A3 & A4 & A5 & A6 & A7 & A8 & A9 & A10 & A11 & A12 & A13 & _).
  exists place, cells, cg, names. do 12 (split; [assumption|]). assumption.
Qed.
Lemma usweep_data : exists place,
  columns (length (us_cells (ub_surf m))) percs place /\
  identified num "ExtrudeItem" (map (fun p => length p - 1) percs) place g /\
  (uv_ghost g = [] \/ length (uv_ghost g) = length place /\ exists i, i < length place /\ flag_of (uv_ghost g) i <> 0) /\
  (forall i j l c, nth_error place i = Some (j, l, c) ->
     exists base v perc, nth_error (us_cells (ub_surf m)) c = Some base /\ nth_error vs j = Some v /\ nth_error percs j = Some perc /\
       (thin (us_pts (ub_surf m)) vs j v perc base -> flag_of (uv_ghost g) i = 32) /\
       (~ thin (us_pts (ub_surf m)) vs j v perc base -> flag_of (uv_ghost g) i =
          match us_ghost (ub_surf m) with Some gh => flag_of gh c | None => 0 end)) /\
  (forall k, ~ In k ["ColumnId"; "LayerId"; "ExtrudeItem"; "CellGroup"]%string ->
     (In k (map fst (uv_cd g)) <-> In k (map fst (us_cd (ub_surf m))))) /\
  forall k x, In (k, x) (uv_cd g) -> ~ In k ["ColumnId"; "LayerId"; "ExtrudeItem"; "CellGroup"]%string ->
    length x = length place /\ exists w, In (k, w) (us_cd (ub_surf m)) /\
    forall i j l c, nth_error place i = Some (j, l, c) -> nth_error x i = nth_error w c.
Proof.
  destruct usweep_all as (place & cells & cg & names & A1 & A2 & _ & _ & _ & _ & _ & _ & _ & _ & _ & _ & _ & A).
  exists place. split; [assumption|]. split; [assumption|]. exact A.
Qed.
End Program.

Lemma usweep_defined {D} (num : Z -> D) (int : D -> Z) (Hint : forall z, int (num z) = z) o tol clean (Hclean : cleans tol clean)
  pvmerge (Hmerge : appends pvmerge) np types (m : ubase D) calls vs percs :
  regular_ubase np types m -> calls <> [] -> shifts calls vs percs ->
  (forall c, In c calls -> usable_group (ubase_view m) (ec_group c)) ->
  (forall bs, 2 <= length bs -> exists g, pvmerge bs = Ok g) ->
  exists g labels, extrude_uprogram num int o pvmerge clean None None m calls = Ok (g, labels).
Proof.
  intros HR Hne Hmv HG HT.
  assert (Hf : flat m). { destruct HR as (_ & _ & _ & _ & H & _). intros ty ids Hin. destruct (H ty ids Hin) as [->|[->|[[-> _]|[-> _]]]]; cbn; auto. }
  assert (Hc : us_cells (ub_surf m) <> []). { destruct HR as (_ & Hty & _ & <- & _). intros E. rewrite E in Hty. now apply Hty. }
  rewrite (uprogram_items num int o clean pvmerge m (proj1 HR) calls vs percs Hmv Hc Hf).
  apply (extrude_umesh_defined_gen num int Hint o tol clean Hclean pvmerge Hmerge np types); auto.
  - unfold usweep. cbn [length]. rewrite uitems_len, combine_length. destruct Hmv as (Lv & _).
    assert (length calls <> 0) by (intros E; apply Hne; now apply length_zero_iff_nil). lia.
  - constructor; [now apply uat_regular|]. apply uitems_all. intros. now apply uat_regular.
  - apply uitems_all. intros w c v Hin. destruct (in_ucalls calls vs percs Hmv c v Hin) as (perc & _ & _ & _ & Hp & H2).
    split; [reflexivity|]. exists perc. auto.
  - intros j a b g Ha Hb. destruct (usweep_nth num m calls vs percs Hmv j b Hb) as (call & v & perc & Hcall & _ & _ & _ & ->).
    rewrite (usweep_mesh num m calls vs percs Hmv j a Ha). apply initialize_usable. cbn [uitem it_group].
    apply HG. eapply nth_error_In; eauto.
Qed.

(* ---- rejected meshes ---- *)
Lemma ucalls_vectors {D} (num : Z -> D) scale angle : forall pre items, items <> [] ->
  Forall (fun c => length (ec_vector c) = 3) pre ->
  exists items', items' <> [] /\ forall rest, extrude_ucalls num scale angle items (pre ++ rest) = extrude_ucalls num scale angle items' rest.
Proof.
  induction pre as [|c pre IH]; intros items Hne HF; [exists items; auto|]. inversion HF as [|? ? Hc HF']; subst.
  assert (exists items1, items1 <> [] /\ extrude_ucall num scale angle items c = Ok items1) as (items1 & Hne1 & E1).
  { unfold extrude_ucall. destruct (rev items) as [|a l] eqn:E; [destruct Hne; rewrite <- (rev_involutive items), E; reflexivity|].
    destruct (ec_vector c) as [|x [|y [|z [|? ?]]]]; try discriminate. unfold extrude_add. cbn [bind]. eexists. split; [|reflexivity].
    intros E'. apply app_eq_nil in E' as [_ E']. discriminate. }
  destruct (IH items1 Hne1 HF') as (items' & Hne' & E'). exists items'. split; [exact Hne'|]. intros rest. cbn [app extrude_ucalls].
  rewrite E1. cbn [bind]. apply E'.
Qed.
Lemma ucall_bad {D} (num : Z -> D) scale angle items c rest : items <> [] -> length (ec_vector c) <> 3 ->
  extrude_ucalls num scale angle items (c :: rest) = Err ValueError.
Proof.
  intros Hne Hc. cbn [extrude_ucalls]. unfold extrude_ucall. destruct (rev items) as [|a l] eqn:E; [destruct Hne; rewrite <- (rev_involutive items), E; reflexivity|].
  destruct (ec_vector c) as [|x [|y [|z [|? ?]]]]; cbn in Hc; try lia; reflexivity.
Qed.

(* dimensions of cells *)
Lemma dims_of : forall l, (forall ty, In ty l -> In ty [1; 3; 4; 5; 7; 8; 9; 10; 12; 13; 14; 42]) ->
  exists ds, mapM dim_of l = Ok ds /\ Forall2 (fun ty d => dim_of ty = Ok d) l ds.
Proof.
  induction l as [|ty l IH]; intros H; [exists []; split; [reflexivity|constructor]|].
  destruct IH as (ds & E & F); [intros; apply H; now right|].
  assert (exists d, dim_of ty = Ok d) as [d Ed].
  { pose proof (H ty (or_introl eq_refl)) as Ht. cbn in Ht. repeat (destruct Ht as [<-|Ht]; [eexists; reflexivity|]). destruct Ht. }
  exists (d :: ds). cbn [mapM]. rewrite Ed, E. split; [reflexivity|]. now constructor.
Qed.
Lemma fold_max_le : forall l (x b : Z), (x <= b -> (forall y, In y l -> y <= b) -> fold_left Z.max l x <= b)%Z.
Proof.
  induction l as [|y l IH]; intros x b Hx H; cbn; [exact Hx|]. apply IH; [|intros; apply H; now right].
  pose proof (H y (or_introl eq_refl)). lia.
Qed.
Lemma fold_max_ge : forall l (x : Z), (x <= fold_left Z.max l x)%Z /\ forall y, In y l -> (y <= fold_left Z.max l x)%Z.
Proof.
  induction l as [|y l IH]; intros x; cbn; [split; [lia|intros ? []]|]. destruct (IH (Z.max x y)) as [H1 H2].
  split; [lia|]. intros z [<-|Hz]; [lia|now apply H2].
Qed.

Lemma uprogram_errors {D} (num : Z -> D) int o pvmerge clean scale angle (m : ubase D) calls :
  let types := map fst (us_cells (ub_surf m)) in
  (forall ty, In ty types -> In ty [1; 3; 4]) \/
  (exists ty, In ty types /\ In ty [10; 12; 13; 14; 42]) /\ (forall ty, In ty types -> In ty [1; 3; 4; 5; 7; 8; 9; 10; 12; 13; 14; 42]) \/
  (forall ty, In ty types -> In ty [5; 7; 8; 9]) /\
    (calls = [] \/ exists pre c rest, calls = pre ++ c :: rest /\
       Forall (fun c => length (ec_vector c) = 3) pre /\ length (ec_vector c) <> 3) ->
  extrude_uprogram num int o pvmerge clean scale angle m calls = Err ValueError.
Proof.
  intros types H. unfold extrude_uprogram, extrude_uinit. cbn [get_dimension v_types]. fold types.
  assert (HK : forall ty, In ty types -> In ty [1; 3; 4; 5; 7; 8; 9; 10; 12; 13; 14; 42]).
  { destruct H as [H|[[_ H]|[H _]]]; [|exact H|]; intros ty Hty; pose proof (H ty Hty) as Ht; cbn in Ht |- *;
      repeat (destruct Ht as [<-|Ht]; [auto 20|]); destruct Ht. }
  destruct (dims_of types HK) as (ds & E & F). rewrite E. cbn [bind].
  destruct ds as [|d ds]; [reflexivity|]. cbn [zmax bind].
  assert (HB : (1 <= fold_left Z.max ds d \/ fold_left Z.max ds d <= 1)%Z) by lia. clear HB.
  assert (HD : forall x, In x (d :: ds) -> exists ty, In ty types /\ dim_of ty = Ok x).
  { intros x Hx. apply In_nth_error in Hx as [i Hi]. destruct (Forall2_get_r _ _ _ F i x Hi) as (ty & Hty & Hd). exists ty. split; [eapply nth_error_In; eauto|exact Hd]. }
  destruct (fold_max_ge ds d) as [G1 G2].
  destruct H as [H|[[(ty & Hty & H3) _]|[H H']]].
  - assert (fold_left Z.max ds d <= 1)%Z.
    { assert (HX : forall x, In x (d :: ds) -> (x <= 1)%Z).
      { intros x Hx. destruct (HD x Hx) as (ty & Hty & Ed). pose proof (H ty Hty) as Ht. cbn in Ht.
        repeat (destruct Ht as [<-|Ht]; [injection Ed as <-; lia|]). destruct Ht. }
      apply fold_max_le; [apply HX; now left|intros; apply HX; now right]. }
    destruct (Z.eqb_spec (fold_left Z.max ds d) 2); [lia|reflexivity].
  - assert (3 <= fold_left Z.max ds d)%Z.
    { apply In_nth_error in Hty as [i Hi]. destruct (Forall2_get _ _ _ F i ty Hi) as (x & Hx & Ed).
      assert (3 <= x)%Z. { cbn in H3. repeat (destruct H3 as [<-|H3]; [injection Ed as <-; lia|]). destruct H3. }
      apply nth_error_In in Hx. destruct Hx as [<-|Hx]; [lia|]. specialize (G2 x Hx). lia. }
    destruct (Z.eqb_spec (fold_left Z.max ds d) 2); [lia|reflexivity].
  - assert (HX : forall x, In x (d :: ds) -> x = 2%Z).
    { intros x Hx. destruct (HD x Hx) as (ty & Hty & Ed). pose proof (H ty Hty) as Ht. cbn in Ht.
      repeat (destruct Ht as [<-|Ht]; [injection Ed as <-; lia|]). destruct Ht. }
    assert (fold_left Z.max ds d = 2)%Z as ->.
    { apply Z.le_antisymm; [apply fold_max_le; [rewrite (HX d (or_introl eq_refl)); lia|intros y Hy; rewrite (HX y (or_intror Hy)); lia]|].
      rewrite <- (HX d (or_introl eq_refl)) at 1. exact G1. }
    cbn [Z.eqb Pos.eqb negb bind].
    destruct H' as [->|(pre & c & rest & -> & HF & Hc)]; [reflexivity|].
    destruct (ucalls_vectors num scale angle pre [mkItem m ResNone None 0%Z 0 GNone false] ltac:(discriminate) HF) as (items' & Hne & E').
    rewrite E', ucall_bad; auto.
Qed.

(* one mask given by a function *)
Lemma single_name o (mesh : gmesh nat) key f b c k x : plain key -> f mesh = MBool b ->
  length b = length (gm_cells mesh) -> nth_error b c = Some x ->
  item_name o mesh (GDict [(key, SelCall f)]) c k ->
  if x then k = key else base_name (labelled mesh) (ignore_groups o) (the_default o "") c k.
Proof.
  intros Hp Ef Lb Hb H. cbn [item_name] in H.
  assert (HS : entry_selects mesh (key, SelCall f) c <-> x = true).
  { unfold entry_selects, selects. cbn [fst snd]. rewrite Ef. cbn [addresses]. rewrite Hb. split.
    - intros [H1 _]. specialize (H1 Hp). congruence.
    - intros ->. split; [intros _; reflexivity|]. intros k' E. exfalso. exact (Hp _ E). }
  destruct H as [(e & (l1 & l2 & E & He & _) & Hk)|(HF & Hbase)].
  - intros e [<-|[]]. right. exists f, b. split; [reflexivity|exact Ef].
  - destruct l1 as [|y [|? ?]]; try discriminate. injection E as <- <-. apply HS in He. rewrite He. cbn [fst] in Hk.
    destruct Hk as [E|[_ E]]; [exfalso; exact (Hp _ E)|exact E].
  - inversion HF as [|? ? Hn _]; subst. destruct x; [exfalso; apply Hn, HS; reflexivity|exact Hbase].
Qed.
