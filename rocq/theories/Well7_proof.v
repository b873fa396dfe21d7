From Coq Require Import Reals Lra Lia Permutation Sorted.
From Verif Require Import RealAux Perc_model Volume_model Volume_spec Lines_spec Groups_model Groups_spec Groups_proof Groups2_proof
  Stack_model Stack_spec Stack3_proof Stack4_proof SMerge_model SMerge_proof Nodes_proof Final_model Final_spec Unstr_model Unstr_spec Unstr1_proof Unstr3_proof
  Topo_model Topo5_proof MMerge_model MMerge_spec MMerge_proof Paint_spec Paint_proof Tidy_proof Well_model Well_spec Well_proof
  Sweep_model Sweep_spec Sweep2_model Sweep2_spec Sweep2_proof Well3_model Well3_spec Well3_proof Well5_proof.
Open Scope nat_scope.

Section Load.
Context {D : Type} (num : Z -> D) (int : D -> Z) (Hint : forall z, int (num z) = z) (areas : shape3 -> list pt -> list R).
Context (pvmerge : list (uvol D) -> res (uvol D)) (Hmerge : appends pvmerge) (Htotal : forall bs, 2 <= length bs -> exists g, pvmerge bs = Ok g).
Context (clean : R -> uvol D -> uvol D) (e1 e2 : R) (He1 : cleans e1 (clean (/ 10 ^ 8)%R)) (He2 : cleans e2 (clean (/ 10 ^ 4)%R)).
Context (Hm : forall bs g, Forall point_rows bs -> pvmerge bs = Ok g -> point_rows g) (Hc : forall t g, point_rows g -> point_rows (clean t g)).
Context (pick : list nat -> uvol D -> uvol D) (Hpick : extracts pick).

Lemma load_well_3d_ok : exists g2 groups l g labels place cells names,
  load_well_2d num int areas pvmerge clean = Ok (g2, groups) /\ drawn g2 (map snd l) /\ names_of int g2 groups (map fst l) /\
  load_well_3d num int areas pvmerge clean pick = Ok (g, labels) /\
  cells_of g cells /\ names_of int g labels names /\ length cells = 10 * 704 + 3 * 96 /\ length names = 10 * 704 + 3 * 96 /\ length place = 10 * 704 + 3 * 96 /\
  NoDup place /\ layer_ids num place g /\
  (forall c L, In (c, L) place <->
     exists k ps, nth_error l c = Some (k, ps) /\ (L < 10 \/ L < 13 /\ (k = "Core" \/ k = "Casing")%string)) /\
  forall i c L, nth_error place i = Some (c, L) ->
    exists k ps cell, nth_error l c = Some (k, ps) /\ nth_error names i = Some k /\ nth_error cells i = Some cell /\
      prism e1 (uv_pts g) cell ps (well_height L) (well_height (S L)).
Proof.
  destruct (load_ok num int Hint areas pvmerge Hmerge (fun x y => Htotal [x; y] (le_n 2)) clean e1 e2 He1 He2)
    as (g2 & groups & l & A & B & C & E & F & _ & (K1 & K2 & K3 & K4) & T & W & Lnum).
  assert (Hr : rows g2) by (eapply well_rows; eauto).
  assert (Hl : l <> []) by (intros ->; discriminate).
  destruct (base_ok int g2 groups l B C T W) as (cells2 & cg2 & Hc2 & EB & Hcg2 & Hg2 & L2 & Lcg2 & HF2).
  pose proof (lowered_regular num int g2 groups l B C T W Hr Hl cells2 cg2 Hc2 L2 Lcg2 HF2) as HR.
  match type of HR with regular_ubase _ _ (lowered _ ?x) => set (m0 := x) in * end.
  assert (Hcount : forall k, 0 < named_count k l -> In k (map fst l)).
  { intros k Hk. apply count_in in Hk as (c & ps & Hi). apply (in_map fst) with (x := (k, ps)). eapply nth_error_In; eauto. }
  destruct (raise_ok num int Hint pvmerge Hmerge Htotal clean e1 He1 pick Hpick m0 _ _ (map int cg2) groups (map fst l) HR eq_refl eq_refl Lnum Hg2)
    as (g & labels & place & cells & names & E3 & F3 & G3 & LC & LN & NP & IP & IL & _ & _ & HP).
  - unfold m0. cbn. now rewrite !map_length.
  - now rewrite !map_length.
  - intros c k Hk. rewrite nth_error_map in Hk. destruct (nth_error l c) as [[k' ps]|] eqn:Hi; [|discriminate]. injection Hk as <-. cbn.
    destruct (F k' ps (nth_error_In _ _ Hi)) as (qs & HZ & HF).
    destruct (Forall2_get_r _ _ _ HF2 c ps ltac:(rewrite nth_error_map, Hi; reflexivity)) as (cell & _ & ty & ids & _ & Hps & _).
    destruct qs as [|q qs]; [inversion HF; subst; cbn in Hps; lia|]. inversion HZ; subst. eapply four_names; eauto.
  - apply Hcount. lia.
  - apply Hcount. lia.
  - assert (IP' : forall c L, In (c, L) place <-> exists k ps, nth_error l c = Some (k, ps) /\ (L < 10 \/ L < 13 /\ (k = "Core" \/ k = "Casing")%string)).
    { intros c L. rewrite IP. split.
      - intros (k & Hk & HL). rewrite nth_error_map in Hk. destruct (nth_error l c) as [[k' ps]|]; [|discriminate]. injection Hk as <-. cbn in HL. eauto.
      - intros (k & ps & Hk & HL). exists k. rewrite nth_error_map, Hk. auto. }
    assert (LP : length place = 10 * 704 + 3 * 96).
    { rewrite (count_places l place NP IP'), E, K1, K2. reflexivity. }
    exists g2, groups, l, g, labels, place, cells, names. split; [exact A|]. split; [exact B|]. split; [exact C|].
    split. { unfold load_well_3d. rewrite A. cbn [bind]. rewrite EB. cbn [bind]. exact E3. }
    split; [exact F3|]. split; [exact G3|]. split; [congruence|]. split; [congruence|]. split; [exact LP|]. split; [exact NP|]. split; [exact IL|]. split; [exact IP'|].
    intros i c L Hi. destruct (HP i c L Hi) as (k & [ty0 ids0] & np & lay & cell & f & Hk & Hnm & Hcell & Hbase & Hext & Hpt).
    rewrite nth_error_map in Hk. destruct (nth_error l c) as [[k' ps]|] eqn:El; [|discriminate]. injection Hk as <-. cbn [fst] in Hnm.
    exists k', ps, (rename f cell). split; [reflexivity|]. split; [exact Hnm|]. split; [exact Hcell|].
    destruct (Forall2_get_r _ _ _ HF2 c ps ltac:(rewrite nth_error_map, El; reflexivity)) as (cell2 & Hcell2 & ty & ids & -> & Hty & HI).
    unfold m0 in Hbase, Hpt. cbn [ub_surf us_cells us_pts snd] in Hbase, Hpt. rewrite nth_error_map, Hcell2 in Hbase. cbn in Hbase. injection Hbase as <- <-.
    assert (HPR : forall ty', cell = Plain ty' (lift lay np ids ++ lift (S lay) np ids) -> ((length ps = 3 /\ ty' = 13) \/ (length ps = 4 /\ ty' = 12)) ->
      prism e1 (uv_pts g) (rename f cell) ps (well_height L) (well_height (S L))).
    { intros ty' -> Hty'. exists ty', (map f (lift lay np ids ++ lift (S lay) np ids)). split; [reflexivity|]. split; [exact Hty'|].
      rewrite map_app. unfold lift.
      assert (HH : forall h, h <= 1 -> Forall2 (fun i p => exists q, nth_error (uv_pts g) i = Some q /\ within e1 p q)
        (map f (map (fun u => u + (lay + h) * np) ids)) (map (at_height (well_height (L + h))) ps)).
      { intros h Hh.
        assert (G : forall ids' ps', Forall2 (fun i q => nth_error (uv_pts g2) i = Some q) ids' ps' -> incl ids' ids ->
          Forall2 (fun i p => exists q, nth_error (uv_pts g) i = Some q /\ within e1 p q)
            (map f (map (fun u => u + (lay + h) * np) ids')) (map (at_height (well_height (L + h))) ps')).
        { clear -Hpt Hh. induction 1 as [|u p ids' ps' Hu HI IH]; intros HS; cbn [map]; constructor.
          - apply Hpt; auto. apply HS. now left.
          - apply IH. intros x Hx. apply HS. now right. }
        exact (G ids ps HI (incl_refl ids)). }
      apply Forall2_app.
      - pose proof (HH 0 (Nat.le_0_l 1)) as H0. rewrite !Nat.add_0_r in H0. exact H0.
      - pose proof (HH 1 (le_n 1)) as H1. replace (lay + 1) with (S lay) in H1 by lia. replace (L + 1) with (S L) in H1 by lia. exact H1. }
    destruct Hty as [[-> Lp]|[-> Lp]]; inversion Hext; subst; eapply HPR; eauto.
Qed.
End Load.
