From Verif Require Import RealAux Surface_model Volume_model Volume_spec SMerge_model SMerge_proof
  Groups_model Groups_spec Groups_proof Groups2_proof Stack_model Stack_spec Stack_proof Stack4_proof
  Lines_spec Final_model Final_spec Final1_proof Unstr_model Unstr_spec Unstr1_proof Unstr2_proof MMerge_model MMerge_spec MMerge_proof.
From Coq Require Import Lra Permutation.
Open Scope nat_scope.

(* meshes appended in any order *)
Section All.
Context {D : Type}.
Notation uvol := (uvol D).

Definition sound (b : uvol) : Prop :=
  (exists cs, cells_of b cs) /\ NoDup (map fst (uv_cd b)) /\ forall k v, In (k, v) (uv_cd b) -> length v = length (uv_types b).

Lemma picks_In {X} (vals : list X) ids xs x : picks vals ids xs -> In x xs -> In x vals.
Proof. intros H Hx. apply In_nth_error in Hx as [p Hp]. revert p Hp. induction H as [|i y ids xs Hi _ IH]; intros [|p] Hp; try discriminate; [injection Hp as ->; eapply nth_error_In; eauto|eauto]. Qed.

Lemma decoded (bs : list uvol) : (forall b, In b bs -> sound b) -> exists cells, Forall2 cells_of bs cells.
Proof.
  induction bs as [|b bs IH]; intros H; [exists []; constructor|]. destruct IH as [cells HF]; [intros; apply H; right; auto|].
  destruct (H b) as ((cs & Hc) & _); [left; auto|]. exists (cs :: cells). constructor; auto.
Qed.

Lemma gathered_all bs order bs' g : picks bs order bs' -> Permutation order (seq 0 (length bs)) -> appended bs' g ->
  (forall b, In b bs -> sound b) -> exists place, gathered bs bs' place g /\ (forall b, In b bs' <-> In b bs) /\ covers bs place.
Proof.
  intros Hk HP (HC & HN & HK & HA & HF & HB) Hs.
  set (ns := fun _ : nat => 1). set (nc := fun j => match nth_error bs j with Some b => length (uv_types b) | None => 0 end).
  set (place := map (fun s : nat * nat * nat => (fst (fst s), snd s)) (places ns nc order)).
  assert (Hat : forall i j c, nth_error place i = Some (j, c) -> nth_error (places ns nc order) i = Some (j, 0, c)).
  { intros i j c H. unfold place in H. rewrite nth_error_map in H. destruct (nth_error (places ns nc order) i) as [[[j' l] c']|] eqn:E; [|discriminate].
    cbn in H. injection H as -> ->. assert (Hin : In (j, l, c) (places ns nc order)) by (eapply nth_error_In; eauto).
    apply places_In in Hin as (_ & Hl & _). unfold ns in Hl. replace l with 0 by lia. reflexivity. }
  assert (Hin : forall x, In x bs' <-> In x bs).
  { intros x. split; [apply (picks_In _ _ _ _ Hk)|]. intros H. apply In_nth_error in H as [j Hj].
    assert (Hjo : In j order).
    { apply (Permutation_in j (Permutation_sym HP)). apply in_seq. split; [lia|]. apply nth_error_Some. congruence. }
    apply In_nth_error in Hjo as [p Hp]. destruct (picks_at _ _ _ _ _ Hk Hp) as (y & Hy & Hy'). rewrite Hj in Hy'. injection Hy' as <-. eapply nth_error_In; eauto. }
  assert (Hs' : forall b, In b bs' -> sound b) by (intros b Hb; apply Hs, Hin, Hb).
  destruct (decoded bs' Hs') as (cells & HD). destruct (HC cells HD) as (f & Hc & Hf). rewrite stacked_concat in Hc, Hf.
  assert (LC : Forall2 (fun j xs => length xs = ns j * nc j) order cells).
  { clear - HD Hk. revert cells HD. unfold ns, nc. induction Hk as [|j b order bs' Hj _ IH]; intros cells HD; inversion HD; subst; constructor; auto.
    rewrite Hj, Nat.mul_1_l. now apply decode_length with (s := uv_stream b). }
  assert (Lbc : length bs' = length cells) by exact (Forall2_len _ _ _ HD).
  pose proof (stack_list_lengths (fun j => ns j * nc j) bs' order 0 cells Lbc LC) as LS.
  assert (Lpl : length place = length (places ns nc order)) by (unfold place; apply map_length).
  exists place. split; [|split; [exact Hin|]].
  - split.
    { eexists. split; [exact Hc|]. split; [rewrite map_length, Lpl; apply (places_length ns nc order); exact LS|].
      intros i j c Hi. apply Hat in Hi. destruct (located ns nc order i j 0 c Hi) as (p & Hp & _ & Hcj & HX).
      destruct (picks_at _ _ _ _ _ Hk Hp) as (b & Hb & Hbj).
      destruct (nth_error cells p) as [cs|] eqn:Ecs; [|apply nth_error_None in Ecs; assert (p < length bs') by (apply nth_error_Some; congruence); lia].
      assert (Hcs : cells_of b cs).
      { clear - HD Hb Ecs. revert p Hb Ecs. induction HD as [|x y bs' cells H _ IH]; intros [|p] Hb Ec; try discriminate; [injection Hb as ->; injection Ec as ->; exact H|eauto]. }
      destruct (stack_list_at bs' 0 cells p b cs Hb Ecs) as (k & Ek & Hy).
      destruct (HX _ _ LS) as (xs & Hxs & E). rewrite Ek in Hxs. injection Hxs as <-. change (0 * nc j + c) with c in E. rewrite nth_error_map in E.
      assert (Lt : c < length cs). { unfold nc in Hcj. rewrite Hbj in Hcj. unfold cells_of in Hcs. apply decode_length in Hcs. lia. }
      destruct (nth_error cs c) as [cell|] eqn:Ecell; [|apply nth_error_None in Ecell; lia]. cbn [option_map] in E.
      exists b, cs, cell, (fun v => f (0 + k + v)). split; [exact Hbj|]. split; [exact Hcs|]. split; [exact Ecell|]. split.
      { rewrite nth_error_map, E. cbn [option_map]. now rewrite rename_rename. }
      intros v q Hv Hq. apply Hf.
      - apply in_flat_map. exists (rename (fun i => 0 + k + i) cell). split; [eapply nth_error_In; exact E|]. apply (rename_In (fun i => 0 + k + i)). exact Hv.
      - cbn [Nat.add]. rewrite Hy; [exact Hq|]. apply nth_error_Some. congruence. }
    split; [exact HN|]. split; [exact HK|].
    assert (HL : forall (X : Type) (h : uvol -> list X) xs, Forall2 (fun b v => v = h b) bs' xs -> (forall b, In b bs' -> length (h b) = length (uv_types b)) ->
      Forall2 (fun j xs => length xs = ns j * nc j) order xs).
    { intros X h xs Hxs Hl. clear - Hk Hxs Hl. unfold ns, nc. revert xs Hxs. induction Hk as [|j b order bs' Hj _ IH]; intros xs Hxs; inversion Hxs; subst; constructor.
      - rewrite Hj, Nat.mul_1_l. apply Hl. left; reflexivity.
      - apply IH; [intros; apply Hl; right; auto|auto]. }
    split.
    { intros k x Hx. destruct (HA k x Hx) as (xs & Hxs & ->).
      assert (LX : Forall2 (fun j xs => length xs = ns j * nc j) order xs).
      { clear - Hk Hxs Hs'. unfold ns, nc. revert xs Hxs. induction Hk as [|j b order bs' Hj _ IH]; intros xs Hxs; inversion Hxs; subst; constructor.
        - rewrite Hj, Nat.mul_1_l. destruct (Hs' b) as (_ & _ & HL); [left; auto|]. eauto.
        - apply IH; [intros; apply Hs'; right; auto|auto]. }
      split; [rewrite Lpl; now apply places_length|]. intros i j c Hi. apply Hat in Hi. destruct (located ns nc order i j 0 c Hi) as (p & Hp & _ & Hcj & HX).
      destruct (picks_at _ _ _ _ _ Hk Hp) as (b & Hb & Hbj). destruct (HX _ _ LX) as (v & Hv & E). exists b, v. split; [exact Hbj|]. split; [|exact E].
      clear - Hxs Hb Hv. revert p Hb Hv. induction Hxs as [|y w bs' xs H _ IH]; intros [|p] Hb Hv; try discriminate; [injection Hb as ->; injection Hv as ->; exact H|eauto]. }
    split.
    { intros Hfull. rewrite (HF Hfull), flat_map_concat_map.
      assert (LX : Forall2 (fun j xs => length xs = ns j * nc j) order (map uv_ghost bs')).
      { apply (HL _ uv_ghost); [|intros b Hb; exact (Hfull b Hb)]. clear. induction bs'; constructor; auto. }
      split; [rewrite Lpl; now apply places_length|]. intros i j c Hi. apply Hat in Hi. destruct (located ns nc order i j 0 c Hi) as (p & Hp & _ & Hcj & HX).
      destruct (picks_at _ _ _ _ _ Hk Hp) as (b & Hb & Hbj). destruct (HX _ _ LX) as (v & Hv & E). exists b. split; [exact Hbj|].
      rewrite nth_error_map, Hb in Hv. cbn in Hv. injection Hv as <-. exact E. }
    intros (b & Hb & Hbare). split; [|apply HB; exists b; destruct Hbare; auto].
    intros E. unfold cells_of in Hc. rewrite E in Hc. apply decode_length in Hc. rewrite map_length, (places_length ns nc order _ LS) in Hc. cbn in Hc.
    destruct Hbare as [Ht _]. apply In_nth_error in Hb as [p Hp].
    assert (exists j, nth_error order p = Some j) as (j & Hj).
    { destruct (nth_error order p) as [j|] eqn:Ej; [eauto|]. apply nth_error_None in Ej. pose proof (Forall2_len _ _ _ Hk) as L.
      assert (p < length bs') by (apply nth_error_Some; congruence). lia. }
    destruct (picks_at _ _ _ _ _ Hk Hj) as (b' & Hb' & Hbj). rewrite Hp in Hb'. injection Hb' as <-.
    assert (Hx : In (j, 0, 0) (places ns nc order)).
    { apply places_In. split; [eapply nth_error_In; eauto|]. split; [unfold ns; lia|]. unfold nc. rewrite Hbj. destruct (uv_types b); [congruence|cbn; lia]. }
    destruct (places ns nc order); [destruct Hx|discriminate].
  - split.
    + unfold place. assert (NP : NoDup (places ns nc order)).
      { apply places_NoDup. apply (Permutation_NoDup (Permutation_sym HP)). apply seq_NoDup. }
      clear - NP. assert (HL : forall x, In x (places ns nc order) -> snd (fst x) = 0).
      { intros [[j l] c] H. apply places_In in H as (_ & Hl & _). unfold ns in Hl. cbn. lia. }
      induction NP as [|x l Hx _ IH]; cbn [map]; constructor.
      * intros Hin. apply in_map_iff in Hin as (y & E & Hy). apply Hx. replace x with y; [exact Hy|].
        destruct x as [[j l1] c], y as [[j' l2] c']. pose proof (HL _ (or_introl eq_refl)) as Z1. pose proof (HL _ (or_intror Hy)) as Z2. cbn in *. subst. now injection E as -> ->.
      * apply IH. intros y Hy. apply HL. right; exact Hy.
    + intros j c. unfold place. rewrite in_map_iff. split.
      * intros ([[j' l] c'] & E & H). cbn in E. injection E as -> ->. apply places_In in H as (_ & _ & H). unfold nc in H.
        destruct (nth_error bs j) as [b|]; [eauto|lia].
      * intros (b & Hb & Hc'). exists (j, 0, c). split; [reflexivity|]. apply places_In. split.
        { apply (Permutation_in j (Permutation_sym HP)). apply in_seq. split; [lia|]. apply nth_error_Some. congruence. }
        split; [unfold ns; lia|]. unfold nc. rewrite Hb. exact Hc'.
Qed.
End All.

(* _clean on meshes put together: P j c k says that the cell c of block j may be named k *)
Section Finish.
Context {D : Type} (num : Z -> D) (int : D -> Z) (Hint : forall z, int (num z) = z).
Context (tol : R) (clean : uvol D -> uvol D) (Hclean : cleans tol clean).

Definition named_blocks (groups : dict) (blks : list (uvol D)) (P : nat -> nat -> string -> Prop) : Prop :=
  forall j b, nth_error blks j = Some b -> NoDup (map fst (uv_cd b)) /\ exists arr, In ("CellGroup"%string, map num arr) (uv_cd b) /\
    forall c, c < length (uv_types b) -> exists k, named groups arr c k /\ P j c k.

Lemma gathered_finish blks s place g0 groups P : numbered groups -> gathered blks s place g0 -> (forall b, In b s <-> In b blks) -> covers blks place ->
  named_blocks groups blks P ->
  exists g labels, finish_unstructured num int clean g0 groups = Ok (g, labels) /\
    (exists cells, cells_of g cells /\ length cells = length place /\
      forall i j c, nth_error place i = Some (j, c) -> exists b cs cell f,
        nth_error blks j = Some b /\ cells_of b cs /\ nth_error cs c = Some cell /\ nth_error cells i = Some (rename f cell) /\
        forall v p, In v (vcell_ids cell) -> nth_error (uv_pts b) v = Some p -> exists q, nth_error (uv_pts g) (f v) = Some q /\ within tol p q) /\
    numbered labels /\ NoDup (map fst (uv_cd g)) /\
    (exists cg names, In ("CellGroup"%string, cg) (uv_cd g) /\ get_cell_group (Some (map int cg)) (Some labels) = Ok (Some (inl names)) /\
      length names = length place /\ (forall k, In k (map fst labels) <-> In k names) /\
      forall i j c, nth_error place i = Some (j, c) -> exists k, nth_error names i = Some k /\ P j c k) /\
    (forall k, In k (map fst (uv_cd g)) <-> forall b, In b blks -> In k (map fst (uv_cd b))) /\
    (forall k x, In (k, x) (uv_cd g) -> k <> "CellGroup"%string -> length x = length place /\
      forall i j c, nth_error place i = Some (j, c) -> exists b v,
        nth_error blks j = Some b /\ In (k, v) (uv_cd b) /\ nth_error x i = nth_error v c) /\
    ((exists b, In b blks /\ bare b) -> uv_ghost g = []).
Proof.
  intros Hn ((cells & Hc & Lc & HP) & HN & HK & HA & HFull & HBare) Hs [HCN HCov] HB.
  destruct (Hclean g0 cells Hc) as (f & Hcl & Ecd & Egh & Hpts).
  assert (HKc : forall b, In b s -> In "CellGroup"%string (map fst (uv_cd b))).
  { intros b Hb. apply Hs, In_nth_error in Hb as [j Hj]. destruct (HB j b Hj) as (_ & arr & Ha & _).
    apply in_map_iff. exists ("CellGroup"%string, map num arr). auto. }
  assert (exists cg, In ("CellGroup"%string, cg) (uv_cd g0)) as (cg & Hcg).
  { assert (H : In "CellGroup"%string (map fst (uv_cd g0))) by (apply HK; exact HKc).
    apply in_map_iff in H as ([k v] & E & H). cbn in E. subst k. eauto. }
  destruct (HA _ _ Hcg) as [Lcg HCG].
  assert (HNm : forall i j c, nth_error place i = Some (j, c) -> exists k z, nth_error cg i = Some (num z) /\ In (k, z) groups /\ P j c k).
  { intros i j c Hi. assert (Hc' : In (j, c) place) by (eapply nth_error_In; eauto). apply HCov in Hc' as (b & Hb & Hlt).
    destruct (HCG i j c Hi) as (b' & v & Hb' & Hv & E). rewrite Hb in Hb'. injection Hb' as <-.
    destruct (HB j b Hb) as (HNb & arr & Ha & Hk). destruct (Hk c Hlt) as (k & (z & Hz & Hkz) & Hname). exists k, z. split; [|auto].
    assert (v = map num arr) as -> by (eapply NoDup_fst_fun; eauto). rewrite E, nth_error_map, Hz. reflexivity. }
  assert (Hat : forall i, i < length place -> exists j c, nth_error place i = Some (j, c)).
  { intros i Hi. destruct (nth_error place i) as [[j c]|] eqn:E; [eauto|]. apply nth_error_None in E. lia. }
  destruct (finish_unstructured_spec num int Hint clean g0 groups cg) as
    (g & labels & cg' & Hfin & Ety & Est & Ept & Egh' & HN' & Hoth & Hcg' & Hnl & Lcg' & Hname & HKl); auto.
  { rewrite Ecd; auto. } { rewrite Ecd; auto. }
  { intros i x Hx. destruct (Hat i) as (j & c & Hi); [rewrite <- Lcg; apply nth_error_Some; congruence|].
    destruct (HNm _ _ _ Hi) as (k & z & Hz & Hk & _). rewrite Hx in Hz. injection Hz as ->. eauto. }
  rewrite Ecd in Hoth. rewrite Egh in Egh'.
  exists g, labels. split; [auto|]. split.
  { exists (map (rename f) cells). split; [unfold cells_of in *; rewrite Ety, Est; auto|]. split; [now rewrite map_length|].
    intros i j c Hi. destruct (HP i j c Hi) as (b & cs & cell & h & Hb & Hcs & Hcell & Hci & Hv).
    exists b, cs, cell, (fun v => f (h v)). split; [auto|]. split; [exact Hcs|]. split; [auto|].
    split; [rewrite nth_error_map, Hci; cbn [option_map]; now rewrite rename_rename|].
    intros v p Hin Hp. rewrite Ept. apply Hpts; [|apply Hv; auto].
    apply in_flat_map. exists (rename h cell). split; [eapply nth_error_In; eauto|]. apply (rename_In h). auto. }
  split; [auto|]. split; [auto|]. split.
  { destruct (names_spec num int Hint labels cg' Hnl) as (names & H1 & H2 & H3 & H4); [|auto|].
    { intros i Hi. destruct (Hat i) as (j & c & Hp); [lia|]. destruct (HNm _ _ _ Hp) as (k & z & Hz & Hk & _).
      exists k. apply Hname. exists z. split; [rewrite nth_error_map, Hz; cbn; now rewrite Hint|auto]. }
    exists (map num cg'), names. split; [auto|]. split; [auto|]. split; [lia|]. split; [auto|].
    intros i j c Hi. destruct (HNm _ _ _ Hi) as (k & z & Hz & Hk & Hbase). exists k. split; [|auto].
    apply H3, Hname. exists z. split; [rewrite nth_error_map, Hz; cbn; now rewrite Hint|auto]. }
  split.
  { intros k. destruct (String.string_dec k "CellGroup"%string) as [->|Hk].
    { split; [intros _ b Hb; apply HKc, Hs, Hb|]. intros _. apply in_map_iff. exists ("CellGroup"%string, map num cg'). auto. }
    assert (E : In k (map fst (uv_cd g)) <-> In k (map fst (uv_cd g0))).
    { rewrite !in_map_iff. split; intros ([k' v] & <- & Hv); exists (k', v); (split; [auto|]); apply Hoth; auto. }
    rewrite E, HK. split; intros H b Hb; apply H, Hs, Hb. }
  split.
  { intros k x Hx Hk. apply Hoth in Hx; [|auto]. exact (HA k x Hx). }
  intros (b & Hb & Hbare). assert (HG : bare g0) by (apply HBare; exists b; split; [apply Hs, Hb|exact Hbare]). destruct HG as [_ HG].
  rewrite Egh', HG. reflexivity.
Qed.
End Finish.
