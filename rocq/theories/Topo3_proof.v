(* Extraction of faces and neighbours: proofs. *)
From Coq Require Import Permutation Sorted.
From Verif Require Import Topo_model Volume_spec Topo_spec Topo_proof Topo2_proof.
Open Scope nat_scope.

Lemma extract_Ok nonzero rg d g : wf_mesh (cast d) -> extract_cell_geometry nonzero rg d = Ok g ->
  exists n faces g0, get_dimension d = Ok n /\ mesh_faces rg (cast d) n faces /\
    get_polydata faces = Ok g0 /\ (if rg then drop_collapsed nonzero g0 else Ok g0) = Ok g.
Proof.
  intros W. unfold extract_cell_geometry.
  destruct (get_dimension d) as [n|] eqn:En; [|discriminate]; cbn [bind].
  set (m := cast d) in *.
  destruct (get_cell_connectivity m) as [cells|] eqn:Ec; [|discriminate]; cbn [bind].
  destruct (connectivity_Ok m cells W Ec) as [Hl Hc].
  destruct ((n =? 1) || (n =? 2))%Z eqn:E2.
  - destruct (negb (forallb _ (v_types m))) eqn:Es; [discriminate|].
    apply negb_false_iff in Es. rewrite forallb_forall in Es.
    destruct (mapM _ (combine cells (v_types m))) as [ce|] eqn:Em; [|discriminate]; cbn [bind].
    destruct (get_polydata ce) as [g0|] eqn:Eg; [|discriminate]; cbn [bind].
    intros H. exists n, ce, g0; repeat split; auto.
    + apply mapM_Ok in Em. apply Forall2_combine in Em as [Hl' _]; lia.
    + intros i t Ht. apply mapM_Ok in Em. apply Forall2_combine in Em as [Hl' Hn]; [|lia].
      destruct (nth_error cells i) as [c|] eqn:Eci.
      2:{ apply nth_error_None in Eci. assert (i < length (v_types m)) by (apply nth_error_Some; congruence). lia. }
      destruct (Hn i c t Eci Ht) as (fs & Hf & Hok). exists c, fs. split; [apply Hc; auto|]. split; auto.
      rewrite E2. simpl in Hok. destruct c as [ids|fs0]; [|discriminate]. exists ids; split; auto.
      apply cell_edges_Ok; auto. apply Es. eapply nth_error_In; eauto.
  - destruct (cell_faces (v_types m) cells) as [cf|] eqn:Ef; [|discriminate]; cbn [bind].
    destruct (get_polydata cf) as [g0|] eqn:Eg; [|discriminate]; cbn [bind].
    intros H. exists n, cf, g0; repeat split; auto.
    + apply cell_faces_Ok in Ef as [Hl' _]; lia.
    + intros i t Ht. apply cell_faces_Ok in Ef as [Hl' Hn]; [|lia].
      destruct (nth_error cells i) as [c|] eqn:Eci.
      2:{ apply nth_error_None in Eci. assert (i < length (v_types m)) by (apply nth_error_Some; congruence). lia. }
      destruct (Hn i t c Ht Eci) as (fs & Hf & Hok). exists c, fs. split; [apply Hc; auto|]. split; auto.
      rewrite E2; auto.
Qed.

Lemma incid_In i0 faces i f : In (i, f) (incid i0 faces) <->
  exists k fs, i = i0 + k /\ nth_error faces k = Some fs /\ In f fs.
Proof.
  revert i0; induction faces as [|fs faces IH]; intros i0; unfold incid; simpl.
  - split; [tauto|intros (k & fs & _ & H & _); destruct k; discriminate].
  - rewrite in_app_iff. change (concat _) with (incid (S i0) faces). rewrite IH, in_map_iff. split.
    + intros [(x & [= <- <-] & Hx)|(k & fs' & -> & Hk & Hf)].
      * exists 0, fs; split; [lia|auto].
      * exists (S k), fs'; split; [lia|auto].
    + intros ([|k] & fs' & -> & Hk & Hf).
      * injection Hk as <-. left; exists f; split; auto. f_equal; lia.
      * right; exists k, fs'; split; [lia|auto].
Qed.

Lemma incidences_In faces i f : In (i, f) (incidences faces) <->
  exists fs, nth_error faces i = Some fs /\ In f fs.
Proof.
  change (incidences faces) with (incid 0 faces). rewrite incid_In. split.
  - intros (k & fs & -> & H); eauto.
  - intros (fs & H); exists i, fs; auto.
Qed.

Lemma incidences_concat faces i f : In (i, f) (incidences faces) -> In f (concat faces).
Proof.
  rewrite incidences_In. intros (fs & H1 & H2). apply in_concat. exists fs; split; auto.
  eapply nth_error_In; eauto.
Qed.

Lemma concat_incidences faces f : In f (concat faces) -> exists i, In (i, f) (incidences faces).
Proof.
  intros H; apply in_concat in H as (fs & H1 & H2). apply In_nth_error in H1 as [i Hi].
  exists i; apply incidences_In; eauto.
Qed.

Lemma once_faces_in occ g f : lists_once occ g -> In f (g_faces g) -> exists i, In (i, f) occ.
Proof.
  intros (pos & L1 & L2 & _ & H & _) Hf. apply In_nth_error in Hf as [k Hk].
  destruct (nth_error pos k) as [p|] eqn:Ep.
  2:{ apply nth_error_None in Ep. assert (k < length (g_faces g)) by (apply nth_error_Some; congruence). lia. }
  destruct (H k p Ep) as (i & f' & H1 & H2 & _). exists i. assert (f' = f) as -> by congruence.
  eapply nth_error_In; eauto.
Qed.

Lemma forallb_id_map {A} (f : A -> bool) l : forallb (fun b => b) (map f l) = forallb f l.
Proof. induction l; simpl; f_equal; auto. Qed.

Lemma drop_none nonzero rg faces g0 : lists_once (incidences faces) g0 -> no_collapse nonzero rg faces ->
  (if rg then drop_collapsed nonzero g0 else Ok g0) = Ok g0.
Proof.
  intros Ho Hn. destruct rg; auto. unfold drop_collapsed. rewrite forallb_id_map.
  rewrite (proj2 (forallb_forall _ _)); auto. intros f Hf.
  apply Hn; auto. destruct (once_faces_in _ _ _ Ho Hf) as [i Hi]. eapply incidences_concat; eauto.
Qed.

Theorem geometry_faces nonzero rg d g : wf_mesh (cast d) -> extract_cell_geometry nonzero rg d = Ok g ->
  exists n faces, get_dimension d = Ok n /\ mesh_faces rg (cast d) n faces /\
    (no_collapse nonzero rg faces -> lists_once (incidences faces) g /\ exists w, common_width w g).
Proof.
  intros W H. destruct (extract_Ok _ _ _ _ W H) as (n & faces & g0 & H1 & H2 & H3 & H4).
  exists n, faces; split; [auto|]; split; [auto|]. intros Hn.
  pose proof (get_polydata_once _ _ H3) as [Ho Hw].
  rewrite (drop_none _ _ _ _ Ho Hn) in H4. apply Ok_inj in H4; subst g; auto.
Qed.

Lemma concat_nil_lengths {A} (l : list (list A)) : concat l = [] <-> forall n, In n (map (fun x => length x) l) -> n = 0.
Proof.
  induction l as [|x l IH]; simpl; [split; auto; tauto|]. split.
  - intros H n [<-|Hn]; apply app_eq_nil in H as [-> H]; auto. apply IH; auto.
  - intros H. rewrite (proj2 IH) by (intros; auto). rewrite app_nil_r.
    apply length_zero_iff_nil; auto.
Qed.

Lemma faces_of_same t c fs fs' : faces_of t c fs -> faces_of t c fs' ->
  forall f', In f' fs' -> exists f, In f fs /\ same_set f f'.
Proof.
  intros A B f' Hf'.
  destruct A as [fs| |t ids table fs A1 A2 A3 A4|c]; inversion B as [| |t' ids' table' fs2 B1 B2 B3 B4|]; subst;
    try (simpl in *; intuition lia); try (exists f'; split; auto; intros x; tauto); try (inversion Hf'; fail).
  apply In_nth_error in Hf' as [k Hk].
  assert (exists loc, nth_error table' k = Some loc /\ same_set f' (map (fun v => nth v ids 0) loc)) as (loc & Hl & Hs).
  { clear -B4 Hk. revert k Hk; induction B4; intros [|k] Hk; try discriminate; simpl in *; eauto.
    injection Hk as <-; eauto. }
  assert (Hin : In loc table).
  { apply (Permutation_in _ (Permutation_sym A2)). apply (Permutation_in _ B2). eapply nth_error_In; eauto. }
  apply In_nth_error in Hin as [j Hj].
  destruct (Forall2_nth_error _ _ _ _ _ A4 Hj) as (f & Hf & Hs').
  exists f; split; [eapply nth_error_In; eauto|]. intros x. rewrite (Hs' x), (Hs x); tauto.
Qed.

Theorem geometry_defined nonzero rg d n faces : wf_mesh (cast d) -> get_dimension d = Ok n ->
  mesh_faces rg (cast d) n faces -> concat faces <> [] ->
  (rg = true -> forall f f', In f (concat faces) -> same_set f f' -> nonzero f' = true) ->
  exists g, extract_cell_geometry nonzero rg d = Ok g.
Proof.
  intros W En [M1 M2] Hne Hz. unfold extract_cell_geometry. rewrite En; cbn [bind]. set (m := cast d) in *.
  destruct (connectivity_def m W) as [cells Ec].
  { intros i Hi. destruct (nth_error (v_types m) i) as [t|] eqn:Et; [|apply nth_error_None in Et; lia].
    destruct (M2 i t Et) as (c & fs & Hc & _); eauto. }
  rewrite Ec; cbn [bind]. destruct (connectivity_Ok m cells W Ec) as [Hl Hc].
  assert (Hcells : forall i t c, nth_error (v_types m) i = Some t -> nth_error cells i = Some c ->
     exists fs, nth_error faces i = Some fs /\
     if ((n =? 1) || (n =? 2))%Z then exists ids, c = CIds ids /\ edges_of rg t ids fs else faces_of t c fs).
  { intros i t c Ht Hci. destruct (M2 i t Ht) as (c' & fs & Hc' & Hf & Hcase).
    apply Hc in Hci. rewrite (cell_conn_fun _ _ _ _ Hci Hc'). eauto. }
  assert (Hfin : forall fs' , map (fun x => length x) fs' = map (fun x => length x) faces ->
     (forall f', In f' (concat fs') -> exists f, In f (concat faces) /\ same_set f f') ->
     exists g, (let! g := get_polydata fs' in if rg then drop_collapsed nonzero g else Ok g) = Ok g).
  { intros fs' Hlen Hin. assert (Hne' : concat fs' <> []).
    { intros E. apply Hne. apply concat_nil_lengths. rewrite <- Hlen. apply concat_nil_lengths; auto. }
    destruct (get_polydata_def fs') as [g0 Eg].
    { destruct (concat fs') as [|f r] eqn:Ecc; [congruence|].
      destruct (concat_incidences fs' f) as [i Hi]; [rewrite Ecc; simpl; auto|].
      intros E; rewrite E in Hi; inversion Hi. }
    rewrite Eg; cbn [bind]. destruct (get_polydata_once _ _ Eg) as [Ho _].
    exists g0. apply (drop_none nonzero rg fs'); auto. intros Hr f Hf. destruct (Hin f Hf) as (f0 & Hf0 & Hs0); eauto. }
  destruct ((n =? 1) || (n =? 2))%Z eqn:E2.
  - assert (Es : forallb (fun t => existsb (Nat.eqb t) supported2d) (v_types m) = true).
    { apply forallb_forall. intros t Ht. apply In_nth_error in Ht as [i Ht].
      destruct (nth_error cells i) as [c|] eqn:Eci.
      2:{ apply nth_error_None in Eci. assert (i < length (v_types m)) by (apply nth_error_Some; congruence). lia. }
      destruct (Hcells i t c Ht Eci) as (fs & _ & ids & _ & He).
      inversion He; subst; auto.
      - destruct H as [-> | ->]; auto.
      - simpl in H; destruct H as [<-|[<-|[<-|[]]]]; auto. }
    rewrite Es; cbn [negb].
    destruct (mapM _ (combine cells (v_types m))) as [ce|] eqn:Em.
    + cbn [bind]. replace ce with faces; [apply (Hfin faces); auto; intros f' Hf'; exists f'; split; auto; intros x; tauto|].
      apply mapM_Ok in Em. apply Forall2_combine in Em as [Hl' Hn]; [|lia].
      apply nth_error_ext; intros i.
      destruct (nth_error (v_types m) i) as [t|] eqn:Et.
      2:{ apply nth_error_None in Et. rewrite !(proj2 (nth_error_None _ _)); auto; lia. }
      assert (i < length (v_types m)) by (apply nth_error_Some; congruence).
      destruct (nth_error cells i) as [c|] eqn:Eci; [|apply nth_error_None in Eci; lia].
      destruct (Hcells i t c Et Eci) as (fs & -> & ids & -> & He).
      destruct (Hn i _ t Eci Et) as (fs' & -> & Hok). simpl in Hok.
      apply cell_edges_Ok in He; [congruence|].
      rewrite forallb_forall in Es; apply Es; eapply nth_error_In; eauto.
    + exfalso. destruct (mapM_def (fun ct : conn * nat => let! ids := ids_of_conn (fst ct) in cell_edges rg (snd ct) ids)
        (combine cells (v_types m))) as [r Hr]; [|congruence].
      intros [c t] Hin. apply in_combine_nth in Hin as (i & Hi & Hj).
      destruct (Hcells i t c Hj Hi) as (fs & _ & ids & -> & He). exists fs; simpl.
      apply cell_edges_Ok; auto. rewrite forallb_forall in Es; apply Es; eapply nth_error_In; eauto.
  - destruct (cell_faces_def (v_types m) cells faces Hl M1) as (faces' & Ecf & Hlen); auto.
    rewrite Ecf. cbn [bind]. apply Hfin; auto.
    apply cell_faces_Ok in Ecf as [L' H']; auto.
    intros f' Hf'. apply in_concat in Hf' as (fs' & Hi & Hf'). apply In_nth_error in Hi as [i Hi].
    assert (i < length faces') by (apply nth_error_Some; congruence).
    destruct (nth_error (v_types m) i) as [t|] eqn:Et; [|apply nth_error_None in Et; lia].
    destruct (nth_error cells i) as [c|] eqn:Eci; [|apply nth_error_None in Eci; lia].
    destruct (Hcells i t c Et Eci) as (fs & Hfs & A). destruct (H' i t c Et Eci) as (fs2 & Hfs2 & B).
    assert (fs2 = fs') as -> by congruence.
    destruct (faces_of_same _ _ _ _ A B f' Hf') as (f & Hf & Hs). exists f; split; auto.
    apply in_concat. exists fs; split; auto. eapply nth_error_In; eauto.
Qed.

(* ---- positions kept by a filter ---- *)
Lemma filter_positions {A} (keep : A -> bool) l :
  exists ps, StronglySorted lt ps /\ Forall2 (fun p o => nth_error l p = Some o) ps (filter keep l) /\
    forall p o, nth_error l p = Some o -> (keep o = true <-> In p ps).
Proof.
  induction l as [|x l (ps & H1 & H2 & H3)].
  - exists []; simpl; repeat split; try constructor; destruct p; discriminate.
  - assert (S1 : StronglySorted lt (map S ps)).
    { clear -H1. induction H1 as [|p ps Hp IH Hlt]; simpl; constructor; auto.
      apply Forall_forall; intros q Hq; apply in_map_iff in Hq as (q' & <- & Hq').
      rewrite Forall_forall in Hlt; apply Hlt in Hq'; lia. }
    assert (S2 : Forall2 (fun p o => nth_error (x :: l) p = Some o) (map S ps) (filter keep l)).
    { clear -H2. induction H2; simpl; constructor; auto. }
    assert (S3 : forall p o, nth_error l p = Some o -> (keep o = true <-> In (S p) (map S ps))).
    { intros p o Hp. rewrite (H3 p o Hp). rewrite in_map_iff. split; [eauto|].
      intros (q & [= ->] & Hq); auto. }
    simpl. destruct (keep x) eqn:E.
    + exists (0 :: map S ps); repeat split.
      * constructor; auto. apply Forall_forall; intros q Hq; apply in_map_iff in Hq as (q' & <- & _); lia.
      * constructor; auto.
      * intros Hk. destruct p as [|p]; [left; auto|right; apply (S3 p o); auto].
      * destruct p as [|p]; simpl in H.
        -- injection H as <-; auto.
        -- intros [?|Hin]; [lia|]. apply (S3 p o); auto.
    + exists (map S ps); repeat split; auto.
      * destruct p as [|p]; simpl in H; [injection H as <-; congruence|apply S3; auto].
      * destruct p as [|p]; simpl in H; [|apply S3; auto].
        intros Hin; apply in_map_iff in Hin as (q & Hq & _); lia.
Qed.

Lemma sorted_lt_NoDup l : StronglySorted lt l -> NoDup l.
Proof.
  induction 1 as [|x l Hl IH Hx]; constructor; auto. intros Hin; rewrite Forall_forall in Hx.
  apply Hx in Hin; lia.
Qed.

(* row k lists incidences at positions ps *)
Lemma once_row occ g k r : lists_once occ g -> nth_error (g_rows g) k = Some r ->
  exists f ps sel n, nth_error (g_faces g) k = Some f /\
    r = map (fun o => Z.of_nat (fst o)) sel ++ repeat (-1)%Z n /\ sel <> [] /\
    StronglySorted lt ps /\ Forall2 (fun p (o : nat * list nat) => nth_error occ p = Some o) ps sel /\
    (forall p o, nth_error occ p = Some o -> (same_set (snd o) f <-> In p ps)).
Proof.
  intros (pos & L1 & L2 & _ & H & _) Hr.
  destruct (nth_error pos k) as [p|] eqn:Ep.
  2:{ apply nth_error_None in Ep. assert (k < length (g_rows g)) by (apply nth_error_Some; congruence). lia. }
  destruct (H k p Ep) as (i & f & H1 & H2 & H3 & sel & n & H4 & keep & Hs & Hk).
  destruct (filter_positions keep occ) as (ps & F1 & F2 & F3).
  exists f, ps, sel, n. split; auto. split; [congruence|].
  assert (Hp : In p ps).
  { apply (F3 p (i, f)); auto. apply Hk; simpl. intros x; tauto. }
  split.
  { intros E. rewrite <- Hs, E in F2. inversion F2; subst. inversion Hp. }
  split; auto. split; [rewrite Hs; auto|].
  intros q o Hq. rewrite <- Hk. apply F3; auto.
Qed.

Lemma once_find occ g p i f : lists_once occ g -> nth_error occ p = Some (i, f) ->
  exists k h r, nth_error (g_faces g) k = Some h /\ nth_error (g_rows g) k = Some r /\ same_set f h.
Proof.
  intros (pos & L1 & L2 & _ & _ & H) Hp. destruct (H (i, f)) as (k & h & H1 & H2).
  { eapply nth_error_In; eauto. }
  destruct (nth_error (g_rows g) k) as [r|] eqn:Er.
  2:{ apply nth_error_None in Er. assert (k < length (g_faces g)) by (apply nth_error_Some; congruence). lia. }
  exists k, h, r; auto.
Qed.

(* ---- neighbour loop ---- *)
Definition contrib (i : nat) (row : list Z) : list Z :=
  match row with
  | [a; b] => if ((a =? -1) || (b =? -1))%Z then []
              else (if Z.to_nat a =? i then [b] else []) ++ (if Z.to_nat b =? i then [a] else [])
  | _ => []
  end.

Lemma append_at_Ok i j l l' : append_at i j l = Ok l' ->
  length l' = length l /\ forall k, nth_error l' k =
    match nth_error l k with Some r => Some (r ++ if i =? k then [j] else []) | None => None end.
Proof.
  unfold append_at. destruct (nth_error l i) as [r|] eqn:E; [|discriminate]. intros H%Ok_inj; subst l'.
  split; [apply upd_length|]. intros k. rewrite upd_nth_error.
  destruct (Nat.eqb_spec i k) as [->|Hne]; simpl.
  - assert (k < length l) by (apply nth_error_Some; congruence). apply Nat.ltb_lt in H; rewrite H, E; auto.
  - destruct (nth_error l k); auto. rewrite app_nil_r; auto.
Qed.

Lemma append_at_def i j l : i < length l -> exists l', append_at i j l = Ok l' /\ length l' = length l.
Proof.
  intros H. unfold append_at. destruct (nth_error l i) eqn:E; [|apply nth_error_None in E; lia].
  eexists; split; [reflexivity|apply upd_length].
Qed.

Lemma neighbor_loop_Ok rows nb nb' : neighbor_loop rows nb = Ok nb' ->
  length nb' = length nb /\ (forall r, In r rows -> length r = 2) /\
  forall k, nth_error nb' k =
    match nth_error nb k with Some r => Some (r ++ flat_map (contrib k) rows) | None => None end.
Proof.
  revert nb; induction rows as [|row rows IH]; intros nb; cbn [neighbor_loop].
  - intros H%Ok_inj; subst; repeat split; [simpl; tauto|].
    intros k; destruct (nth_error nb' k); simpl; auto. rewrite app_nil_r; auto.
  - destruct row as [|a [|b [|c row]]]; try discriminate.
    destruct ((a =? -1) || (b =? -1))%Z eqn:E.
    + intros H; apply IH in H as (H1 & H2 & H3). repeat split; auto.
      * intros r [<-|Hr]; auto.
      * intros k; rewrite H3. simpl. rewrite E; auto.
    + destruct (append_at (Z.to_nat a) b nb) as [nb1|] eqn:E1; [|discriminate]; cbn [bind].
      destruct (append_at (Z.to_nat b) a nb1) as [nb2|] eqn:E2; [|discriminate]; cbn [bind].
      intros H; apply IH in H as (H1 & H2 & H3).
      apply append_at_Ok in E1 as [L1 A1]. apply append_at_Ok in E2 as [L2 A2].
      repeat split; [lia| |].
      * intros r [<-|Hr]; auto.
      * intros k; rewrite H3, A2, A1. destruct (nth_error nb k); auto.
        simpl. rewrite E. rewrite !app_assoc; auto.
Qed.

Lemma neighbor_loop_def rows nb : (forall r, In r rows -> length r = 2 /\
    forall z, In z r -> z = (-1)%Z \/ (0 <= z < Z.of_nat (length nb))%Z) ->
  exists nb', neighbor_loop rows nb = Ok nb'.
Proof.
  revert nb; induction rows as [|row rows IH]; intros nb H; cbn [neighbor_loop]; eauto.
  destruct (H row) as [Hl Hz]; [simpl; auto|].
  destruct row as [|a [|b [|c row]]]; try discriminate.
  destruct ((a =? -1) || (b =? -1))%Z eqn:E; [apply IH; intros; apply H; simpl; auto|].
  apply orb_false_iff in E as [Ea Eb]. apply Z.eqb_neq in Ea, Eb.
  destruct (Hz a) as [|Ha]; [simpl; auto|congruence|]. destruct (Hz b) as [|Hb]; [simpl; auto|congruence|].
  destruct (append_at_def (Z.to_nat a) b nb) as (nb1 & E1 & L1); [lia|]. rewrite E1; cbn [bind].
  destruct (append_at_def (Z.to_nat b) a nb1) as (nb2 & E2 & L2); [lia|]. rewrite E2; cbn [bind].
  apply IH. rewrite L2, L1. intros; apply H; simpl; auto.
Qed.

Lemma contrib_In i row z : length row = 2 -> In z (contrib i row) <->
  exists a b, row = [a; b] /\ a <> (-1)%Z /\ b <> (-1)%Z /\
    ((Z.to_nat a = i /\ z = b) \/ (Z.to_nat b = i /\ z = a)).
Proof.
  intros Hl. destruct row as [|a [|b [|c row]]]; try discriminate. unfold contrib.
  destruct ((a =? -1) || (b =? -1))%Z eqn:E.
  - split; [simpl; tauto|]. intros (a' & b' & [= <- <-] & Ha & Hb & _).
    apply orb_true_iff in E as [E|E]; apply Z.eqb_eq in E; congruence.
  - apply orb_false_iff in E as [Ea Eb]. apply Z.eqb_neq in Ea, Eb. rewrite in_app_iff.
    split.
    + intros [H|H].
      * destruct (Nat.eqb_spec (Z.to_nat a) i); simpl in H; [destruct H as [<-|[]]|tauto].
        exists a, b; repeat split; auto.
      * destruct (Nat.eqb_spec (Z.to_nat b) i); simpl in H; [destruct H as [<-|[]]|tauto].
        exists a, b; repeat split; auto.
    + intros (a' & b' & [= <- <-] & _ & _ & [[<- ->]|[<- ->]]); rewrite Nat.eqb_refl; simpl; auto.
Qed.

Lemma row2_split (sel : list (nat * list nat)) n a b :
  [a; b] = map (fun o => Z.of_nat (fst o)) sel ++ repeat (-1)%Z n -> sel <> [] ->
  (exists o, sel = [o] /\ b = (-1)%Z) \/
  (exists o1 o2, sel = [o1; o2] /\ a = Z.of_nat (fst o1) /\ b = Z.of_nat (fst o2)).
Proof.
  destruct sel as [|o1 [|o2 [|o3 sel]]]; simpl; intros H Hn; try congruence.
  - left; exists o1; split; auto. destruct n; [discriminate|]. simpl in H; congruence.
  - right; exists o1, o2. injection H; intros; auto.
Qed.

Lemma once_ids faces g r z : lists_once (incidences faces) g -> In r (g_rows g) -> In z r ->
  z = (-1)%Z \/ (0 <= z < Z.of_nat (length faces))%Z.
Proof.
  intros Ho Hr Hz. apply In_nth_error in Hr as [k Hk].
  destruct (once_row _ _ _ _ Ho Hk) as (f & ps & sel & n & _ & -> & _ & _ & F & _).
  apply in_app_or in Hz as [Hz|Hz]; [right|left; eapply repeat_spec; eauto].
  apply in_map_iff in Hz as (o & <- & Hin). apply In_nth_error in Hin as [j Hj].
  assert (exists p, nth_error (incidences faces) p = Some o) as [p Hp].
  { clear -F Hj. revert j Hj; induction F; intros [|j] Hj; try discriminate; simpl in *; eauto.
    injection Hj as <-; eauto. }
  apply nth_error_In in Hp. destruct o as [i h]. apply incidences_In in Hp as (fs & Hfs & _).
  assert (i < length faces) by (apply nth_error_Some; congruence). simpl; lia.
Qed.

Theorem neighbors_share faces g nb : lists_once (incidences faces) g ->
  neighbor_loop (g_rows g) (repeat [] (length faces)) = Ok nb ->
  length nb = length faces /\
  (forall i r, nth_error nb i = Some r ->
     forall z, In z r <-> exists j, z = Z.of_nat j /\ share faces i j) /\
  (forall i j ri rj, nth_error nb i = Some ri -> nth_error nb j = Some rj ->
     count_occ Z.eq_dec ri (Z.of_nat j) = count_occ Z.eq_dec rj (Z.of_nat i)).
Proof.
  intros Ho H. apply neighbor_loop_Ok in H as (Hl & H2 & Hn). rewrite repeat_length in Hl.
  assert (Hr : forall i r, nth_error nb i = Some r -> r = flat_map (contrib i) (g_rows g)).
  { intros i r Hi. rewrite Hn in Hi. destruct (Nat.lt_ge_cases i (length faces)) as [Hlt|Hge].
    - rewrite repeat_nth_error in Hi by auto. simpl in Hi; congruence.
    - assert (nth_error (repeat (@nil Z) (length faces)) i = None) as E
        by (apply nth_error_None; rewrite repeat_length; auto). rewrite E in Hi; discriminate. }
  split; [auto|]. split.
  - intros i r Hi z. rewrite (Hr i r Hi), in_flat_map. split.
    + intros (row & Hrow & Hz). apply contrib_In in Hz as (a & b & -> & Ha & Hb & Hcase); [|apply H2; auto].
      apply In_nth_error in Hrow as [k Hk].
      destruct (once_row _ _ _ _ Ho Hk) as (f & ps & sel & n & _ & Erow & Hsel & Hsort & F & Hiff).
      destruct (row2_split _ _ _ _ Erow Hsel) as [(o & _ & E)|(o1 & o2 & -> & -> & ->)]; [congruence|].
      inversion F as [|p ? ps' ? Hp F']; subst. inversion F' as [|q ? ps2 ? Hq F2]; subst.
      inversion F2; subst. destruct o1 as [i1 f1], o2 as [i2 f2]; simpl in *.
      assert (Hlt : p < q).
      { inversion Hsort as [|? ? _ Hlt]; subst. inversion Hlt; auto. }
      assert (Hs : same_set f1 f2).
      { intros x. transitivity (In x f).
        - apply (proj2 (Hiff _ _ Hp)); simpl; auto.
        - symmetry. apply (proj2 (Hiff _ _ Hq)); simpl; auto. }
      rewrite !Nat2Z.id in Hcase.
      destruct Hcase as [[-> ->]|[-> ->]].
      * exists i2; split; auto. exists p, q, f1, f2; repeat split; auto; try lia; apply Hs.
      * exists i1; split; auto. exists q, p, f2, f1; repeat split; auto; try lia; apply Hs.
    + intros (j & -> & p & q & f & h & Hpq & Hp & Hq & Hs).
      destruct (once_find _ _ _ _ _ Ho Hp) as (k & h0 & row & Hk1 & Hk2 & Hs2).
      exists row. split; [eapply nth_error_In; eauto|].
      assert (Hlen : length row = 2) by (apply H2; eapply nth_error_In; eauto).
      apply contrib_In; auto.
      destruct (once_row _ _ _ _ Ho Hk2) as (f' & ps & sel & n & Ef & Erow & Hsel & Hsort & F & Hiff).
      assert (f' = h0) as -> by congruence.
      assert (Hpi : In p ps) by (apply (Hiff _ _ Hp); auto).
      assert (Hqi : In q ps).
      { apply (Hiff _ _ Hq); simpl. intros x. rewrite <- (Hs x). apply Hs2. }
      destruct row as [|a [|b [|c row]]]; try discriminate.
      destruct (row2_split _ _ _ _ Erow Hsel) as [(o & -> & E)|(o1 & o2 & -> & -> & ->)].
      * inversion F as [|p1 ? ps' ? Hp1 F']; subst. inversion F'; subst.
        simpl in Hpi, Hqi. destruct Hpi as [->|[]], Hqi as [->|[]]. congruence.
      * inversion F as [|p1 ? ps' ? Hp1 F']; subst. inversion F' as [|q1 ? ps2 ? Hq1 F2]; subst.
        inversion F2; subst. exists (Z.of_nat (fst o1)), (Z.of_nat (fst o2)).
        split; [auto|]. split; [lia|]. split; [lia|]. rewrite !Nat2Z.id.
        simpl in Hpi, Hqi.
        destruct Hpi as [->|[->|[]]], Hqi as [->|[->|[]]]; try congruence.
        -- left. rewrite Hp in Hp1; rewrite Hq in Hq1. injection Hp1 as <-; injection Hq1 as <-; auto.
        -- right. rewrite Hq in Hp1; rewrite Hp in Hq1. injection Hp1 as <-; injection Hq1 as <-; auto.
  - intros i j ri rj Hi Hj. rewrite (Hr i ri Hi), (Hr j rj Hj).
    assert (Hids : forall row, In row (g_rows g) -> forall z, In z row -> z = (-1)%Z \/ (0 <= z)%Z).
    { intros row Hrow z Hz. destruct (once_ids _ _ _ _ Ho Hrow Hz); [auto|right; lia]. }
    clear -H2 Hids. induction (g_rows g) as [|row rows IH]; auto. simpl. rewrite !count_occ_app.
    rewrite IH by (intros; first [apply H2|eapply Hids]; simpl; eauto). f_equal.
    assert (Hlen : length row = 2) by (apply H2; simpl; auto).
    specialize (Hids row (or_introl eq_refl)).
    destruct row as [|a [|b [|c row]]]; try discriminate. unfold contrib.
    destruct ((a =? -1) || (b =? -1))%Z eqn:E; auto.
    apply orb_false_iff in E as [Ea Eb]. apply Z.eqb_neq in Ea, Eb.
    destruct (Hids a) as [|Ha]; [simpl; auto|congruence|].
    destruct (Hids b) as [|Hb]; [simpl; auto|congruence|].
    rewrite !count_occ_app.
    destruct (Nat.eqb_spec (Z.to_nat a) i), (Nat.eqb_spec (Z.to_nat b) i),
      (Nat.eqb_spec (Z.to_nat a) j), (Nat.eqb_spec (Z.to_nat b) j); simpl;
      repeat match goal with |- context [Z.eq_dec ?x ?y] => destruct (Z.eq_dec x y) end; lia.
Qed.

(* two listed faces are different *)
Lemma once_distinct occ g k l fk fl : lists_once occ g -> nth_error (g_faces g) k = Some fk -> nth_error (g_faces g) l = Some fl ->
  same_set fk fl -> k = l.
Proof.
  intros (pos & L1 & L2 & Hs & H & _) Hk Hl Hsame.
  assert (G : forall a b fa fb, a < b -> nth_error (g_faces g) a = Some fa -> nth_error (g_faces g) b = Some fb -> same_set fa fb -> False).
  { intros a b fa fb Hab Ha Hb Hsm.
    destruct (nth_error pos a) as [pa|] eqn:Ea; [|apply nth_error_None in Ea; assert (a < length (g_faces g)) by (apply nth_error_Some; congruence); lia].
    destruct (nth_error pos b) as [pb|] eqn:Eb; [|apply nth_error_None in Eb; assert (b < length (g_faces g)) by (apply nth_error_Some; congruence); lia].
    destruct (H a pa Ea) as (ia & fa' & Oa & Fa & _). destruct (H b pb Eb) as (ib & fb' & Ob & Fb & Hfirst & _).
    assert (fa' = fa) as -> by congruence. assert (fb' = fb) as -> by congruence.
    apply (Hfirst pa ia fa); auto. clear - Hs Hab Ea Eb. revert a b Hab Ea Eb. induction Hs as [|x pos Hs IH Hx]; intros a b Hab Ea Eb; [destruct a; discriminate|].
    destruct b as [|b]; [lia|]. destruct a as [|a]; cbn in Ea, Eb; [|eapply IH; [|eassumption|eassumption]; lia].
    injection Ea as <-. rewrite Forall_forall in Hx. apply Hx. eapply nth_error_In, Eb. }
  destruct (Nat.lt_trichotomy k l) as [Hkl|[Hkl|Hkl]]; [|exact Hkl|]; exfalso.
  - eapply G; eauto.
  - eapply G; [exact Hkl|exact Hl|exact Hk|]. intros x. symmetry. apply Hsame.
Qed.

(* incidence p of cell i has the face f, as another incidence, of cell j *)
Definition meets (occ : list (nat * list nat)) (i j p : nat) (f : list nat) : Prop :=
  exists q a b, p <> q /\ nth_error occ p = Some (i, a) /\ nth_error occ q = Some (j, b) /\ same_set a f /\ same_set b f.

Lemma row_positions occ g i j k f row : lists_once occ g -> nth_error (g_faces g) k = Some f -> nth_error (g_rows g) k = Some row -> length row = 2 ->
  exists cp, NoDup cp /\ length cp = count_occ Z.eq_dec (contrib i row) (Z.of_nat j) /\ forall p, In p cp <-> meets occ i j p f.
Proof.
  intros Ho Hf Hr Hlen. destruct (once_row _ _ _ _ Ho Hr) as (f' & ps & sel & n & Ef & Erow & Hsel & Hsort & F & Hiff).
  assert (f' = f) as -> by congruence. destruct row as [|x [|y [|z row]]]; try discriminate.
  destruct (row2_split _ _ _ _ Erow Hsel) as [(o & -> & ->)|(o1 & o2 & -> & -> & ->)].
  - exists []. split; [constructor|]. split; [unfold contrib; rewrite orb_true_r; reflexivity|]. intros p. split; [intros []|].
    intros (q & a & b & Hpq & Hp & Hq & Sa & Sb). apply Hpq.
    inversion F as [|p1 ? ps' ? Hp1 F']; subst. inversion F'; subst.
    apply (Hiff _ _ Hp) in Sa. apply (Hiff _ _ Hq) in Sb. destruct Sa as [<-|[]], Sb as [<-|[]]. reflexivity.
  - inversion F as [|p1 ? ps' ? Hp1 F']; subst. inversion F' as [|q1 ? ps2 ? Hq1 F2]; subst. inversion F2; subst.
    assert (Hlt : p1 < q1) by (inversion Hsort as [|? ? _ Hlt]; subst; inversion Hlt; auto).
    destruct o1 as [i1 f1], o2 as [i2 f2]. cbn [fst snd].
    assert (S1 : same_set f1 f) by (apply (Hiff _ _ Hp1); now left). assert (S2 : same_set f2 f) by (apply (Hiff _ _ Hq1); right; now left).
    exists ((if (i1 =? i) && (i2 =? j) then [p1] else []) ++ (if (i2 =? i) && (i1 =? j) then [q1] else [])). split; [|split].
    + destruct (_ && _), (_ && _); repeat constructor; cbn; lia.
    + unfold contrib. destruct (Z.eqb_spec (Z.of_nat i1) (-1)); [lia|]. destruct (Z.eqb_spec (Z.of_nat i2) (-1)); [lia|]. cbn [orb]. rewrite !Nat2Z.id.
      rewrite app_length, count_occ_app. f_equal.
      * destruct (Nat.eqb_spec i1 i), (Nat.eqb_spec i2 j); cbn; try reflexivity; destruct (Z.eq_dec _ _); try reflexivity; lia.
      * destruct (Nat.eqb_spec i2 i), (Nat.eqb_spec i1 j); cbn; try reflexivity; destruct (Z.eq_dec _ _); try reflexivity; lia.
    + intros p. rewrite in_app_iff. split.
      * intros [H|H].
        -- destruct (Nat.eqb_spec i1 i), (Nat.eqb_spec i2 j); cbn in H; try easy. destruct H as [<-|[]]. subst. exists q1, f1, f2. split; [lia|]. auto.
        -- destruct (Nat.eqb_spec i2 i), (Nat.eqb_spec i1 j); cbn in H; try easy. destruct H as [<-|[]]. subst. exists p1, f2, f1. split; [lia|]. auto.
      * intros (q & a & b & Hpq & Hp & Hq & Sa & Sb). apply (Hiff _ _ Hp) in Sa. apply (Hiff _ _ Hq) in Sb.
        destruct Sa as [<-|[<-|[]]], Sb as [<-|[<-|[]]]; try congruence.
        -- left. rewrite Hp1 in Hp. rewrite Hq1 in Hq. injection Hp as -> _. injection Hq as -> _. rewrite !Nat.eqb_refl. now left.
        -- right. rewrite Hq1 in Hp. rewrite Hp1 in Hq. injection Hp as -> _. injection Hq as -> _. rewrite !Nat.eqb_refl. now left.
Qed.

Lemma rows_positions occ i j faces rows :
  Forall2 (fun f row => exists cp, NoDup cp /\ length cp = count_occ Z.eq_dec (contrib i row) (Z.of_nat j) /\ forall p, In p cp <-> meets occ i j p f) faces rows ->
  (forall k l fk fl, nth_error faces k = Some fk -> nth_error faces l = Some fl -> same_set fk fl -> k = l) ->
  exists ps, NoDup ps /\ length ps = count_occ Z.eq_dec (flat_map (contrib i) rows) (Z.of_nat j) /\
    forall p, In p ps <-> exists f, In f faces /\ meets occ i j p f.
Proof.
  induction 1 as [|f row faces rows (cp & N & L & Hcp) _ IH]; intros Hd.
  - exists []. split; [constructor|]. split; [reflexivity|]. intros p. split; [intros []|]. intros (f & [] & _).
  - destruct IH as (ps & N' & L' & Hps); [intros k l fk fl Hk Hl Hs; specialize (Hd (S k) (S l) fk fl Hk Hl Hs); lia|].
    exists (cp ++ ps). split; [|split].
    + assert (D : forall p, In p cp -> ~ In p ps).
      { intros p H1 H2. apply Hcp in H1 as (q & a & b & _ & Hp & _ & Sa & _). apply Hps in H2 as (f' & Hf' & q' & a' & b' & _ & Hp' & _ & Sa' & _).
        assert (a' = a) as -> by congruence. apply In_nth_error in Hf' as (k & Hk).
        enough (0 = S k) by lia. apply (Hd 0 (S k) f f' eq_refl Hk). intros x. rewrite <- (Sa x). apply Sa'. }
      clear - N N' D. induction N as [|x cp Hx N IH]; [exact N'|]. cbn. constructor; [|apply IH; intros p Hp; apply D; now right].
      rewrite in_app_iff. intros [H|H]; [auto|]. eapply D; [now left|exact H].
    + cbn [flat_map]. rewrite app_length, count_occ_app. congruence.
    + intros p. rewrite in_app_iff, Hcp, Hps. split.
      * intros [H|(f' & Hf' & H)]; [exists f; split; [now left|exact H]|exists f'; split; [now right|exact H]].
      * intros (f' & [<-|Hf'] & H); [now left|right; eauto].
Qed.

Theorem neighbors_count faces g nb : lists_once (incidences faces) g ->
  neighbor_loop (g_rows g) (repeat [] (length faces)) = Ok nb ->
  forall i r, nth_error nb i = Some r -> forall j, multiplicity faces i j (count_occ Z.eq_dec r (Z.of_nat j)).
Proof.
  intros Ho H i r Hi j. apply neighbor_loop_Ok in H as (Hl & H2 & Hn). rewrite repeat_length in Hl.
  assert (r = flat_map (contrib i) (g_rows g)) as ->.
  { rewrite Hn in Hi. assert (i < length faces).
    { destruct (Nat.lt_ge_cases i (length faces)) as [Hlt|Hge]; [exact Hlt|].
      assert (nth_error (repeat (@nil Z) (length faces)) i = None) as E by (apply nth_error_None; rewrite repeat_length; auto). rewrite E in Hi; discriminate. }
    rewrite repeat_nth_error in Hi by auto. cbn in Hi. congruence. }
  destruct (rows_positions (incidences faces) i j (g_faces g) (g_rows g)) as (ps & N & L & Hps).
  - assert (Len : length (g_faces g) = length (g_rows g)) by (destruct Ho as (pos & L1 & L2 & _); congruence).
    assert (G : forall k f row, nth_error (g_faces g) k = Some f -> nth_error (g_rows g) k = Some row ->
      exists cp, NoDup cp /\ length cp = count_occ Z.eq_dec (contrib i row) (Z.of_nat j) /\ forall p, In p cp <-> meets (incidences faces) i j p f).
    { intros k f row Hf Hr. eapply row_positions; eauto. apply H2. eapply nth_error_In, Hr. }
    clear - Len G. revert Len G. generalize (g_rows g) as rows. induction (g_faces g) as [|f fs IH]; intros [|row rows] Len G; try discriminate; constructor.
    + exact (G 0 f row eq_refl eq_refl).
    + apply IH; [now injection Len|]. intros k f' row' Hf' Hr'. exact (G (S k) f' row' Hf' Hr').
  - intros k l fk fl Hk Hl' Hs. eapply once_distinct; eauto.
  - exists ps. split; [exact N|]. split; [exact L|]. intros p. rewrite Hps. split.
    + intros (f & _ & q & a & b & Hpq & Hp & Hq & Sa & Sb). exists q, a, b. do 3 (split; [assumption|]). intros x. rewrite (Sa x). symmetry. apply Sb.
    + intros (q & f & h & Hpq & Hp & Hq & Hs). destruct (once_find _ _ _ _ _ Ho Hp) as (k & h0 & row & Hk & _ & S0).
      exists h0. split; [eapply nth_error_In, Hk|]. exists q, f, h. do 3 (split; [assumption|]). split; [exact S0|]. intros x. rewrite <- (Hs x). apply S0.
Qed.

Lemma used_row occ_faces g k : lists_once (incidences occ_faces) g -> 0 < k ->
  used k occ_faces <-> exists row, In row (g_rows g) /\ k <= length (filter (fun z => negb (z =? -1)%Z) row).
Proof.
  intros Ho Hk.
  assert (Hcount : forall (sel : list (nat * list nat)) n, length (filter (fun z => negb (z =? -1)%Z)
     (map (fun o => Z.of_nat (fst o)) sel ++ repeat (-1)%Z n)) = length sel).
  { intros sel n. rewrite filter_app, app_length.
    replace (length (filter _ (repeat (-1)%Z n))) with 0.
    - induction sel as [|o sel IH]; simpl; auto.
      destruct (Z.eqb_spec (Z.of_nat (fst o)) (-1)); [lia|]. simpl. lia.
    - induction n; simpl; auto. }
  split.
  - intros (ps & f & Hlen & Hnd & Hall). destruct ps as [|p ps]; [simpl in Hlen; lia|].
    destruct (Hall p) as (i & h & Hp & Hs); [simpl; auto|].
    destruct (once_find _ _ _ _ _ Ho Hp) as (j & h0 & row & Hj1 & Hj2 & Hs2).
    exists row. split; [eapply nth_error_In; eauto|].
    destruct (once_row _ _ _ _ Ho Hj2) as (f' & qs & sel & n & Ef & -> & Hsel & Hsort & F & Hiff).
    rewrite Hcount. rewrite <- (Forall2_len _ _ _ F), <- Hlen.
    apply NoDup_incl_length; auto. intros q Hq.
    destruct (Hall q Hq) as (i' & h' & Hq' & Hs').
    apply (Hiff _ _ Hq'); simpl. assert (f' = h0) as -> by congruence.
    intros x. rewrite (Hs' x), <- (Hs x). apply Hs2.
  - intros (row & Hrow & Hlen). apply In_nth_error in Hrow as [j Hj].
    destruct (once_row _ _ _ _ Ho Hj) as (f & qs & sel & n & Ef & -> & Hsel & Hsort & F & Hiff).
    rewrite Hcount in Hlen. exists (firstn k qs), f.
    apply sorted_lt_NoDup in Hsort. pose proof (Forall2_len _ _ _ F).
    assert (Hpre : forall p, In p (firstn k qs) -> In p qs).
    { intros p Hp. rewrite <- (firstn_skipn k qs). apply in_or_app; auto. }
    repeat split.
    + rewrite firstn_length; lia.
    + rewrite <- (firstn_skipn k qs) in Hsort. clear -Hsort. revert Hsort.
      generalize (firstn k qs) (skipn k qs). induction l as [|x l IH]; intros l' Hn; [constructor|].
      inversion Hn; subst. constructor; [intros Hin; apply H1; apply in_or_app; auto|eapply IH; eauto].
    + intros p Hp. apply Hpre in Hp as Hp2. apply In_nth_error in Hp2 as [a Ha].
      destruct (Forall2_nth_error _ _ _ _ _ F Ha) as ([i h] & Hs & Ho').
      exists i, h; split; auto. apply (Hiff _ _ Ho'); auto.
Qed.

Theorem neighbors_iff faces g w : lists_once (incidences faces) g -> common_width w g ->
  (exists nb, neighbor_loop (g_rows g) (repeat [] (length faces)) = Ok nb) <->
  used 2 faces /\ ~ used 3 faces.
Proof.
  intros Ho [Hw (rf & Hrf & Hfull)].
  assert (Hfilter : forall (r : list Z), length (filter (fun z => negb (z =? -1)%Z) r) <= length r).
  { induction r as [|z r IH]; simpl; auto. destruct (negb (z =? -1)%Z); simpl; lia. }
  assert (Hff : length (filter (fun z => negb (z =? -1)%Z) rf) = w).
  { rewrite <- (Hw rf Hrf). clear -Hfull. induction rf as [|z r IH]; auto. simpl.
    destruct (Z.eqb_spec z (-1)); [subst; simpl in Hfull; tauto|]. simpl. rewrite IH; auto.
    intros Hin; apply Hfull; simpl; auto. }
  rewrite (used_row faces g 2), (used_row faces g 3) by (auto; lia).
  split.
  - intros [nb H]. apply neighbor_loop_Ok in H as (_ & H2 & _).
    assert (w = 2) as -> by (rewrite <- (Hw rf Hrf); apply H2; auto).
    split; [exists rf; split; auto; lia|].
    intros (row & Hrow & Hlen). specialize (Hfilter row). rewrite (Hw _ Hrow) in Hfilter. lia.
  - intros [(row & Hrow & Hlen) H3].
    assert (w = 2) as ->.
    { specialize (Hfilter row). rewrite (Hw _ Hrow) in Hfilter.
      destruct (Nat.le_gt_cases 3 w); [|lia]. exfalso; apply H3; exists rf; split; auto; lia. }
    apply neighbor_loop_def. intros r Hr. split; [auto|]. rewrite repeat_length.
    intros z Hz. eapply once_ids; eauto.
Qed.

Lemma connectivity_lines_Ok rows lines : connectivity_lines rows = Ok lines ->
  (forall r, In r rows -> length r = 2) /\
  lines = map (fun r => (nth 0 r 0%Z, nth 1 r 0%Z)) (filter (fun r => negb (existsb (Z.eqb (-1)) r)) rows).
Proof.
  revert lines; induction rows as [|row rows IH]; intros lines; cbn [connectivity_lines].
  - intros H%Ok_inj; subst; split; auto. simpl; tauto.
  - destruct row as [|a [|b [|c row]]]; try discriminate.
    destruct (connectivity_lines rows) as [r|]; [|discriminate]; cbn [bind].
    intros H%Ok_inj; subst lines. destruct (IH r eq_refl) as [H1 H2]. split.
    + intros r' [<-|Hr]; auto.
    + rewrite H2. cbn [filter existsb]. rewrite (Z.eqb_sym a), (Z.eqb_sym b), orb_false_r, negb_orb.
      destruct (negb (-1 =? a)%Z && negb (-1 =? b)%Z); auto.
Qed.

Lemma connectivity_lines_def rows : (forall r, In r rows -> length r = 2) -> exists lines, connectivity_lines rows = Ok lines.
Proof.
  induction rows as [|row rows IH]; intros H; cbn [connectivity_lines]; eauto.
  destruct IH as [l Hl]; [intros; apply H; simpl; auto|]. specialize (H row (or_introl eq_refl)).
  destruct row as [|a [|b [|c row]]]; try discriminate. rewrite Hl; cbn [bind]; eauto.
Qed.
