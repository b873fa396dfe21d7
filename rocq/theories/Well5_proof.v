From Coq Require Import Reals Lra Lia Permutation Sorted.
From Verif Require Import RealAux Perc_model Volume_model Volume_spec Lines_spec Groups_model Groups_spec Groups_proof Groups2_proof
  Stack_model Stack_spec Stack3_proof Stack4_proof SMerge_model SMerge_proof Nodes_proof Final_model Final_spec Unstr_model Unstr_spec Unstr1_proof Unstr3_proof
  Topo_model Topo5_proof MMerge_model MMerge_spec MMerge_proof Paint_spec Paint_proof Tidy_proof Well_model Well_spec Well_proof
  Sweep_model Sweep_spec Sweep2_model Sweep2_spec Sweep2_proof Well3_model Well3_spec Well3_proof Well4_spec.
Open Scope nat_scope.

Section Raise.
Context {D : Type} (num : Z -> D) (int : D -> Z) (Hint : forall z, int (num z) = z).
Context (pvmerge : list (uvol D) -> res (uvol D)) (Hmerge : appends pvmerge) (Htotal : forall bs, 2 <= length bs -> exists g, pvmerge bs = Ok g).
Context (clean : R -> uvol D -> uvol D) (e1 : R) (He1 : cleans e1 (clean (/ 10 ^ 8)%R)).
Context (pick : list nat -> uvol D -> uvol D) (Hpick : extracts pick).
Context (m0 : ubase D) (np0 : nat) (types : list nat) (cg2 : list Z) (groups : dict) (l : list string).
Context (HR : regular_ubase np0 types (lowered num m0)) (Ecg : ub_cg m0 = Some cg2) (Elb : ub_labels m0 = Some groups).
Context (Lnum : numbered groups) (Hg2 : get_cell_group (Some cg2) (Some groups) = Ok (Some (inl l))).
Context (L2 : length (us_cells (ub_surf m0)) = length l) (Lcg2 : length cg2 = length l).
Context (Hfour : forall c k, nth_error l c = Some k -> In k ["Core"; "Casing"; "Cement"; "Matrix"]%string).
Context (Hcement : In "Cement"%string l) (Hmatrix : In "Matrix"%string l).

Lemma raise_ok : exists g labels place cells names,
  raise_well num int pvmerge clean pick m0 groups = Ok (g, labels) /\
  cells_of g cells /\ names_of int g labels names /\ length cells = length place /\ length names = length place /\
  NoDup place /\
  (forall c L, In (c, L) place <-> exists k, nth_error l c = Some k /\ (L < 10 \/ L < 13 /\ (k = "Core" \/ k = "Casing")%string)) /\
  layer_ids num place g /\
  (forall k w, In (k, w) (us_cd (ub_surf m0)) -> ~ In k ["ColumnId"; "LayerId"; "ExtrudeItem"; "CellGroup"]%string -> above_data k w place g) /\
  (us_ghost (ub_surf m0) = None -> (forall base, In base (us_cells (ub_surf m0)) -> snd base <> []) -> uv_ghost g = []) /\
  forall i c L, nth_error place i = Some (c, L) ->
    exists k base np lay cell F, nth_error l c = Some k /\ nth_error names i = Some k /\ nth_error cells i = Some (rename F cell) /\
      nth_error (us_cells (ub_surf m0)) c = Some base /\ extruded true np lay base cell /\
      forall u h p, In u (snd base) -> h <= 1 -> nth_error (us_pts (ub_surf m0)) u = Some p ->
        exists q, nth_error (uv_pts g) (F (u + (lay + h) * np)) = Some q /\ within e1 (at_height (well_height (L + h)) p) q.
Proof.
  set (m := lowered num m0) in *.
  assert (Ecells : us_cells (ub_surf m) = us_cells (ub_surf m0)) by reflexivity.
  assert (Epts : us_pts (ub_surf m) = map (fun '(x, y, _) => (x, y, (- 30)%R)) (us_pts (ub_surf m0))) by reflexivity.
  assert (Eview : ubase_view m = mkG (seq 0 (length (us_cells (ub_surf m0)))) (Some cg2) (Some groups)).
  { unfold ubase_view. rewrite Ecells. unfold m, lowered. cbn. now rewrite Ecg, Elb. }
  (* numbers of the names *)
  assert (HD : forall k, In k l -> exists a, dget k groups = Some a).
  { intros k Hk. apply In_nth_error in Hk as (c & Hi).
    destruct (proj2 (label_iff groups _ _ c k Lnum Hg2 Hi k) eq_refl) as (v & _ & Hin).
    exists v. apply In_dget; [exact (proj1 Lnum)|exact Hin]. }
  destruct (HD "Cement"%string Hcement) as [a Ea]. destruct (HD "Matrix"%string Hmatrix) as [b Eb]. clear HD.
  destruct (usweep_defined num int Hint (mk_options "" []) e1 (clean (/ 10 ^ 8)%R) He1 pvmerge Hmerge _ _ m (well_calls a b) well_vs _
    HR ltac:(discriminate) (well_shifts a b)) as (g3 & labels3 & E3).
  { intros c Hin d Ed e He. destruct Hin as [ <- |[ <- |[]]]; [discriminate|]. injection Ed as <-. destruct He as [ <- |[]].
    rewrite Eview. unfold either_group. cbn [gm_cells gm_cg snd]. eexists. split; [|right; eexists; split; reflexivity].
    rewrite ?map_length, ?seq_length. congruence. }
  { exact Htotal. }
  destruct (usweep_all num int Hint (mk_options "" []) e1 (clean (/ 10 ^ 8)%R) He1 pvmerge Hmerge m (proj1 HR) (well_calls a b) well_vs _
    (well_shifts a b) g3 labels3 E3)
    as (place & cells3 & cg3 & names3 & [HN HP] & HI3 & Hc3 & Lc3 & HC3 & Hnum3 & Hnd3 & Hcg3 & Hg3 & Ln3 & Hk3 & HG3 & _ & HGh0 & HGh & HK3 & HD3).
  rewrite Ecells, L2 in HP.
  assert (Lg3 : lookup "CellGroup"%string (uv_cd g3) = Some cg3) by (apply lookup_NoDup; auto).
  (* names of the extruded cells *)
  assert (Hbase : forall c k k', nth_error l c = Some k ->
    base_name (labelled (ubase_view m)) (ignore_groups (mk_options "" [])) (the_default (mk_options "" []) "") c k' -> k' = k).
  { intros c k k' Hi Hb. rewrite Eview in Hb. pose proof (label_iff groups _ _ c k Lnum Hg2 Hi) as HL.
    inversion Hb as [cg' lb' k1 E1 H1 _|H1]; subst.
    - injection E1 as <- <-. now apply HL.
    - destruct (H1 _ _ k eq_refl (proj2 (HL k) eq_refl)). }
  assert (Hname : forall i j lay c k, nth_error place i = Some (j, lay, c) -> nth_error l c = Some k ->
    nth_error names3 i = Some (if (j =? 1) && negb (tall k) then "Inactive"%string else k)).
  { intros i j lay c k Hi Hlc. destruct (HG3 i j lay c Hi) as (call & k' & Hcall & Hk' & Hnm).
    destruct j as [|[|j]]; [| |destruct j; discriminate]; injection Hcall as <-; cbn [ec_group] in Hnm; rewrite Hk'; f_equal.
    - cbn [Nat.eqb andb]. exact (Hbase c k k' Hlc Hnm).
    - cbn [Nat.eqb andb].
      assert (Hcg : exists v, nth_error (cg2) c = Some v).
      { destruct (nth_error (cg2) c) eqn:En; [eauto|]. apply nth_error_None in En. rewrite Lcg2 in En.
        assert (c < length l) by (apply nth_error_Some; congruence). lia. }
      destruct Hcg as [v Hv].
      assert (Hx : ((v =? a) || (v =? b))%Z%bool = negb (tall k)).
      { pose proof Hlc as Hlk.
        pose proof (number_iff groups _ _ a "Cement"%string Lnum Hg2 Ea c v k Hv Hlk) as Na.
        pose proof (number_iff groups _ _ b "Matrix"%string Lnum Hg2 Eb c v k Hv Hlk) as Nb.
        pose proof (Hfour c k Hlc) as H4. cbn in H4.
        destruct H4 as [ <- |[ <- |[ <- |[ <- |[]]]]]; cbn [tall String.eqb Ascii.eqb Bool.eqb orb negb].
        - destruct (Z.eqb_spec v a) as [Ev|_]; [apply Na in Ev; discriminate|]. destruct (Z.eqb_spec v b) as [Ev|_]; [apply Nb in Ev; discriminate|]. reflexivity.
        - destruct (Z.eqb_spec v a) as [Ev|_]; [apply Na in Ev; discriminate|]. destruct (Z.eqb_spec v b) as [Ev|_]; [apply Nb in Ev; discriminate|]. reflexivity.
        - rewrite (proj2 Na eq_refl), Z.eqb_refl. reflexivity.
        - rewrite (proj2 Nb eq_refl), Z.eqb_refl, Bool.orb_true_r. reflexivity. }
      pose proof (single_name (mk_options "" []) (ubase_view m) "Inactive"%string (either_group a b)
        (map (fun n => (n =? a)%Z || (n =? b)%Z)%bool (cg2)) c k' (negb (tall k))) as HS.
      assert (Hk : if negb (tall k) then k' = "Inactive"%string else base_name (labelled (ubase_view m)) (ignore_groups (mk_options "" [])) (the_default (mk_options "" []) "") c k').
      { apply HS; auto.
        - intros s'. discriminate.
        - rewrite Eview. reflexivity.
        - rewrite Eview. cbn [gm_cells]. rewrite ?map_length, ?seq_length. congruence.
        - rewrite nth_error_map, Hv. cbn [option_map]. now rewrite Hx. }
      destruct (negb (tall k)); [exact Hk|]. exact (Hbase c k k' Hlc Hk). }
  assert (Hpl : forall i j lay c, nth_error place i = Some (j, lay, c) -> exists k, nth_error l c = Some k /\
    ((j = 0 /\ lay < 10) \/ (j = 1 /\ lay < 3))).
  { intros i j lay c Hi. apply nth_error_In, HP in Hi as (perc & Hp & Hs & Hcl).
    destruct (nth_error l c) as [k|] eqn:El; [|apply nth_error_None in El; lia]. exists k. split; [reflexivity|].
    destruct j as [|[|j]]; [| |destruct j; discriminate]; injection Hp as <-; rewrite evenly_length in Hs; [left|right]; lia. }
  assert (Hpl' : forall j lay c, c < length l -> ((j = 0 /\ lay < 10) \/ (j = 1 /\ lay < 3)) -> exists i, nth_error place i = Some (j, lay, c)).
  { intros j lay c Hcl Hj. apply In_nth_error, HP.
    destruct Hj as [[-> Hj]|[-> Hj]]; eexists; (split; [reflexivity|]); rewrite evenly_length; lia. }
  (* the number of Inactive *)
  assert (exists n, dget "Inactive" labels3 = Some n) as [n En].
  { destruct (In_nth_error _ _ Hcement) as (c & Hi).
    destruct (Hpl' 1 0 c) as (i & Hpi); [apply nth_error_Some; congruence|right; lia|].
    pose proof (Hname i 1 0 c _ Hpi Hi) as Hnm. cbn in Hnm. apply nth_error_In, Hk3 in Hnm.
    destruct (dget "Inactive" labels3) as [n|] eqn:En; [eauto|]. apply dget_None in En. contradiction. }
  set (mask := map (fun x => negb (int x =? n)%Z) cg3).
  assert (Lcg3 : length cg3 = length names3).
  { unfold get_cell_group in Hg3. destruct (mapM _ (map int cg3)) as [ns|] eqn:EM; [|discriminate]. cbn [bind] in Hg3. injection Hg3 as ->.
    apply mapM_Ok in EM. apply Forall2_len in EM. rewrite map_length in EM. exact EM. }
  assert (Hmask : forall i, In i (mask_ids mask) <-> exists k, nth_error names3 i = Some k /\ k <> "Inactive"%string).
  { intros i. unfold mask_ids. rewrite mask_get_seq_In, Nat.sub_0_r. unfold mask. rewrite nth_error_map. split.
    - intros [_ Hi]. destruct (nth_error cg3 i) as [x|] eqn:Ex; [|discriminate]. cbn [option_map] in Hi. injection Hi as Hi.
      destruct (nth_error names3 i) as [k|] eqn:Ek.
      + exists k. split; [reflexivity|]. intros Ekk. apply (number_iff labels3 _ _ n _ Hnum3 Hg3 En i (int x) k) in Ekk; auto.
        * rewrite Ekk, Z.eqb_refl in Hi. discriminate.
        * rewrite nth_error_map, Ex. reflexivity.
      + apply nth_error_None in Ek. assert (i < length cg3) by (apply nth_error_Some; congruence). lia.
    - intros (k & Hk & Hne). split; [lia|]. destruct (nth_error cg3 i) as [x|] eqn:Ex.
      + cbn [option_map]. f_equal. destruct (Z.eqb_spec (int x) n) as [Ex'|]; [|reflexivity].
        exfalso. apply Hne. apply (number_iff labels3 _ _ n _ Hnum3 Hg3 En i (int x) k); auto. rewrite nth_error_map, Ex. reflexivity.
      + apply nth_error_None in Ex. assert (i < length names3) by (apply nth_error_Some; congruence). lia. }
  assert (Hsort : StronglySorted lt (mask_ids mask)) by apply mask_get_seq_sorted.
  assert (Hlt : forall i, In i (mask_ids mask) -> i < length place).
  { intros i Hi. apply Hmask in Hi as (k & Hk & _). rewrite <- Ln3. apply nth_error_Some. congruence. }
  destruct (Hpick (mask_ids mask) (without_ghost g3) cells3) as (f & cells' & Pc & Hcells' & Hpts & Hcd);
    [exact Hc3|exact Hsort|intros i Hi; rewrite Lc3; auto|].
  destruct (Hcd "CellGroup"%string cg3 Lg3) as (cg' & Lcg' & Pcg); [congruence|].
  destruct (picked_group labels3 _ _ (mask_ids mask) (map int cg') Hg3) as (names' & Hg' & Pn).
  { clear -Pcg. induction Pcg as [|i x ids cg' Hi _ IH]; constructor; auto. rewrite nth_error_map, Hi. reflexivity. }
  set (where_ := fun i => match nth_error place i with Some (j, lay, c) => (c, if j =? 0 then lay else 10 + lay) | None => (0, 0) end).
  set (place' := map where_ (mask_ids mask)).
  assert (Hw' : forall i, In i (mask_ids mask) -> exists j lay c k, nth_error place i = Some (j, lay, c) /\
    where_ i = (c, if j =? 0 then lay else 10 + lay) /\ nth_error l c = Some k /\ nth_error names3 i = Some k /\
    ((j = 0 /\ lay < 10) \/ (j = 1 /\ lay < 3 /\ tall k = true))).
  { intros i Hi. destruct (nth_error place i) as [[[j lay] c]|] eqn:Ep; [|apply nth_error_None in Ep; specialize (Hlt i Hi); lia].
    destruct (Hpl i j lay c Ep) as (k & Hlc & Hj). exists j, lay, c, k. unfold where_. rewrite Ep.
    split; [reflexivity|]. split; [reflexivity|]. split; [exact Hlc|].
    pose proof (Hname i j lay c k Ep Hlc) as Hnm. apply Hmask in Hi as (k' & Hk' & Hne). rewrite Hk' in Hnm. injection Hnm as ->.
    destruct Hj as [[-> Hj]|[-> Hj]]; [cbn [Nat.eqb andb] in Hk'; auto|]. cbn [Nat.eqb andb] in Hk', Hne.
    destruct (tall k); [auto|]. cbn in Hne. contradiction. }
  assert (NP : NoDup place').
  { apply NoDup_map_in; [|now apply sorted_nodup]. intros x y Hx Hy Exy.
    destruct (Hw' x Hx) as (j & lay & c & k & Ex & Wx & _ & _ & Hj). destruct (Hw' y Hy) as (j' & lay' & c' & k' & Ey & Wy & _ & _ & Hj').
    rewrite Wx, Wy in Exy. injection Exy as <- EL.
    assert (j = j' /\ lay = lay') as [<- <-].
    { destruct Hj as [[-> Hj]|[-> [Hj _]]], Hj' as [[-> Hj']|[-> [Hj' _]]]; cbn [Nat.eqb] in EL; split; lia. }
    exact (nth_nodup place x y _ HN Ex Ey). }
  assert (IP : forall c L, In (c, L) place' <->
     exists k, nth_error l c = Some k /\ (L < 10 \/ L < 13 /\ (k = "Core" \/ k = "Casing")%string)).
  { intros c L. unfold place'. rewrite in_map_iff. split.
    - intros (i & Ei & Hi). destruct (Hw' i Hi) as (j & lay & c' & k & Ex & Wx & Hlc & _ & Hj). rewrite Wx in Ei. injection Ei as <- <-.
      exists k. split; [exact Hlc|]. destruct Hj as [[-> Hj]|[-> [Hj Ht]]]; cbn [Nat.eqb]; [left; lia|right].
      split; [lia|now apply tall_iff].
    - intros (k & Hlc & HL). assert (Hcl : c < length l) by (apply nth_error_Some; congruence).
      destruct (le_lt_dec 10 L) as [Hge|Hlt10].
      + destruct HL as [HL|[HL Ht]]; [lia|]. apply tall_iff in Ht. destruct (Hpl' 1 (L - 10) c Hcl) as (i & Hi); [right; lia|].
        exists i. split.
        * unfold where_. rewrite Hi. cbn [Nat.eqb]. f_equal. lia.
        * apply Hmask. exists k. pose proof (Hname i _ _ _ _ Hi Hlc) as Hnm. rewrite Ht in Hnm. cbn in Hnm. split; [exact Hnm|].
          intros ->. discriminate.
      + destruct (Hpl' 0 L c Hcl) as (i & Hi); [left; lia|]. exists i. split.
        * unfold where_. rewrite Hi. reflexivity.
        * apply Hmask. exists k. pose proof (Hname i _ _ _ _ Hi Hlc) as Hnm. cbn in Hnm. split; [exact Hnm|].
          intros ->. pose proof (Hfour c _ Hlc) as H4. cbn in H4. intuition discriminate. }
  exists (extract_mask pick mask g3), labels3, place', (map (rename f) cells'), names'.
  split.
  { unfold raise_well. fold (lowered num m0). fold m. rewrite Ea, Eb. fold (well_calls a b).
    change (setp (uops num) _ _) with m. rewrite E3. cbn [bind]. rewrite Lg3, En. reflexivity. }
  split; [exact Hcells'|]. split. { exists cg'. split; [exact Lcg'|exact Hg']. }
  split. { unfold place'. rewrite !map_length, <- (Forall2_len _ _ _ Pc). reflexivity. }
  split. { unfold place'. rewrite map_length, <- (Forall2_len _ _ _ Pn). reflexivity. }
  split; [exact NP|]. split; [exact IP|].
  assert (Hback : forall i c L, nth_error place' i = Some (c, L) -> exists r j lay k, nth_error (mask_ids mask) i = Some r /\
    nth_error place r = Some (j, lay, c) /\ L = (if j =? 0 then lay else 10 + lay) /\ nth_error l c = Some k /\
    ((j = 0 /\ lay < 10) \/ (j = 1 /\ lay < 3 /\ tall k = true))).
  { intros i c L Hi. unfold place' in Hi. rewrite nth_error_map in Hi. destruct (nth_error (mask_ids mask) i) as [r|] eqn:Er; [|discriminate].
    cbn [option_map] in Hi. injection Hi as Hi. destruct (Hw' r (nth_error_In _ _ Er)) as (j & lay & c' & k & Ex & Wx & Hlc & Hnr & Hj).
    rewrite Wx in Hi. injection Hi as -> HL. exists r, j, lay, k. auto. }
  assert (Hmove : forall k x, In (k, x) (uv_cd g3) -> length x = length place ->
    exists x', Groups_spec.entry_of k (uv_cd (extract_mask pick mask g3)) = Some x' /\ length x' = length place' /\
      forall i r, nth_error (mask_ids mask) i = Some r -> nth_error x' i = nth_error x r).
  { intros k x Hx Lx. destruct (Hcd k x) as (x' & Lk & Px); [apply lookup_NoDup; auto|congruence|]. exists x'. split; [exact Lk|]. split.
    - unfold place'. rewrite map_length. symmetry. exact (Forall2_len _ _ _ Px).
    - intros i r Hi. destruct (Forall2_get _ _ _ Px i r Hi) as (y & Hy & Ey). congruence. }
  split.
  { destruct HI3 as (col & lay & itm & Ic & Il & Ii & Lc & Ll & Li & HI).
    destruct (Hmove _ _ Ic Lc) as (col' & Kc & Lc' & Mc). destruct (Hmove _ _ Il Ll) as (lay' & Kl & Ll' & Ml). destruct (Hmove _ _ Ii Li) as (itm' & Ki & Li' & Mi).
    exists col', lay', itm'. do 6 (split; [assumption|]). intros i c h Hi.
    destruct (Hback i c h Hi) as (r & j & la & k & Hr & Hp & -> & _ & Hj). destruct (HI r j la c Hp) as (I1 & I2 & I3).
    rewrite (Mc i r Hr), (Ml i r Hr), (Mi i r Hr). split; [exact I1|]. rewrite I2, I3.
    destruct Hj as [[-> Hj]|[-> [Hj _]]]; cbn [Nat.eqb]; (split; [do 3 f_equal; cbn; lia|]); f_equal; f_equal.
    - destruct (Nat.ltb_spec la 10); [reflexivity|lia]. }
  split.
  { intros k w Hw Hk. assert (Hin : In k (map fst (uv_cd g3))) by (apply (HK3 k Hk); exact (in_map fst _ _ Hw)).
    apply in_map_iff in Hin as ([k' x] & Ek & Hx). cbn in Ek. subst k'. destruct (HD3 k x Hx Hk) as (Lx & w' & Hw2 & HX).
    assert (w' = w) as ->.
    { destruct HR as ((_ & HNd & _) & _). exact (Unstr1_proof.NoDup_fst_fun _ _ _ _ HNd Hw2 Hw). }
    destruct (Hmove k x Hx Lx) as (x' & Kx & Lx' & Mx). exists x'. do 2 (split; [assumption|]). intros i c h Hi.
    destruct (Hback i c h Hi) as (r & j & la & k' & Hr & Hp & _). rewrite (Mx i r Hr). exact (HX r j la c Hp). }
  split.
  { intros Hng Hnil. cbn [extract_mask uv_ghost]. destruct HGh0 as [->|(LG & i & Hi & Hf)]; [reflexivity|]. exfalso. apply Hf.
    destruct (nth_error place i) as [[[j lay] c]|] eqn:Ep; [|apply nth_error_None in Ep; lia].
    destruct (HGh i j lay c Ep) as (base & v & perc & Hb & Hv & Hpc & _ & F2).
    rewrite F2; [unfold m, lowered; cbn; now rewrite Hng|]. intros HT. rewrite Ecells in Hb. pose proof (nth_error_In _ _ Hb) as Hbin. specialize (Hnil base Hbin).
    destruct (snd base) as [|u us] eqn:Eus; [now apply Hnil|].
    assert (Hu : u < length (us_pts (ub_surf m))).
    { destruct HR as ((_ & _ & HW) & _). apply (HW base u); [rewrite Ecells; exact Hbin|rewrite Eus; now left]. }
    destruct (nth_error (us_pts (ub_surf m)) u) as [p|] eqn:Epu; [|apply nth_error_None in Epu; lia].
    unfold thin in HT. rewrite Eus in HT.
    rewrite Epts, nth_error_map in Epu. destruct (nth_error (us_pts (ub_surf m0)) u) as [[[x y] z]|] eqn:Ep0; [|discriminate]. injection Epu as <-.
    assert (Ep1 : nth_error (us_pts (ub_surf m)) u = Some (x, y, (- 30))%R) by (rewrite Epts, nth_error_map, Ep0; reflexivity).
    destruct v as [[vx vy] vz].
    assert (exists n, perc = evenly n /\ ((j = 0 /\ n = 10) \/ (j = 1 /\ n = 3))) as (n' & -> & Hj).
    { destruct j as [|[|j]]; [| |destruct j; discriminate]; injection Hpc as <-; eauto. }
    destruct (nth_error (evenly n') 0) as [t|] eqn:Et; [|apply nth_error_None in Et; rewrite evenly_length in Et; lia].
    destruct (nth_error (evenly n') 1) as [t'|] eqn:Et'; [|apply nth_error_None in Et'; rewrite evenly_length in Et'; lia].
    specialize (HT u t t' _ (or_introl eq_refl) eq_refl eq_refl Ep1). rewrite !(shift_z _ _ _ _ _ _ Hv) in HT.
    apply evenly_nth in Et as [-> _]. apply evenly_nth in Et' as [-> _].
    assert (I10 : INR 10 = 10%R) by (rewrite INR_IZR_INZ; reflexivity). assert (I3 : INR 3 = 3%R) by (rewrite INR_IZR_INZ; reflexivity).
    destruct Hj as [[-> ->]|[-> ->]]; destruct HT as (_ & _ & HT); change (INR 0) with 0%R in HT; change (INR 1) with 1%R in HT.
    - replace (-30 + 0 / INR 10 * 30 - (-30 + 1 / INR 10 * 30))%R with (- 3)%R in HT by (rewrite I10; field).
      replace (-30 + 1 / INR 10 * 30)%R with (- 27)%R in HT by (rewrite I10; field).
      rewrite !Rabs_left in HT by lra. lra.
    - replace (-30 + 30 + 0 / INR 3 * 3 - (-30 + 30 + 1 / INR 3 * 3))%R with (- 1)%R in HT by (rewrite I3; field).
      replace (-30 + 30 + 1 / INR 3 * 3)%R with 1%R in HT by (rewrite I3; field).
      rewrite (Rabs_left (-1)) in HT by lra. rewrite (Rabs_right 1) in HT by lra. lra. }
  intros i c L Hi. unfold place' in Hi. rewrite nth_error_map in Hi. destruct (nth_error (mask_ids mask) i) as [r|] eqn:Er; [|discriminate].
  cbn [option_map] in Hi. injection Hi as Hi.
  destruct (Hw' r (nth_error_In _ _ Er)) as (j & lay & c' & k & Ex & Wx & Hlc & Hnr & Hj). rewrite Wx in Hi. injection Hi as -> HL.
  destruct (Forall2_get _ _ _ Pn i r Er) as (k' & Hk' & Ek'). rewrite Hnr in Ek'. injection Ek' as <-.
  destruct (Forall2_get _ _ _ Pc i r Er) as (cell3 & Hcell3 & Ecell3).
  destruct (HC3 r j lay c Ex) as (base & cell & f3 & v & perc & Hbase' & Hv & Hperc & Hext & Hcell & HQ).
  rewrite Ecell3 in Hcell. injection Hcell as ->. rewrite Ecells in Hbase'.
  set (np := length (us_pts (ub_surf m))) in *.
  exists k, base, np, lay, cell, (fun x => f (f3 x)). split; [exact Hlc|]. split; [exact Hk'|]. split.
  { rewrite nth_error_map, Hcell3. cbn [option_map]. f_equal. destruct cell as [ty ids|fs]; cbn [rename]; f_equal; [apply map_map|].
    rewrite map_map. apply map_ext. intros x. apply map_map. }
  split; [exact Hbase'|]. split; [exact Hext|].
  assert (I10 : INR 10 = 10%R) by (rewrite INR_IZR_INZ; reflexivity). assert (I3 : INR 3 = 3%R) by (rewrite INR_IZR_INZ; reflexivity).
  intros u h p Hu Hh Hp.
  assert (exists t, nth_error perc (lay + h) = Some t) as [t Ht].
  { destruct (nth_error perc (lay + h)) eqn:Et; [eauto|]. apply nth_error_None in Et.
    destruct j as [|[|j]]; [| |destruct j; discriminate]; injection Hperc as <-; rewrite evenly_length in Et; lia. }
  destruct (HQ u h t (at_height (- 30) p) Hu Hh Ht) as (q & Hq & Hwi).
  { rewrite Epts, nth_error_map, Hp. destruct p as [[x y] z]. reflexivity. }
  exists q. split.
  - cbn [extract_mask uv_pts]. apply Hpts; [|exact Hq]. apply in_flat_map. exists (rename f3 cell). split; [eapply nth_error_In; eauto|].
    apply rename_In. now apply (extruded_ids true np lay base cell).
  - replace (at_height (well_height (L + h)) p) with (shifted (at_height (- 30) p) well_vs j v t); [exact Hwi|].
    destruct v as [[vx vy] vz]. rewrite (shift_z _ _ _ _ _ _ Hv). destruct p as [[x y] z]. cbn [at_height].
    destruct j as [|[|j]]; [| |destruct j; discriminate]; injection Hperc as <-; apply evenly_nth in Ht as [-> Ht]; cbn [Nat.eqb] in HL; unfold well_height; destruct (Nat.leb_spec (L + h) 10) as [Hle|Hgt].
    + f_equal. replace (lay + h) with (L + h) by lia. rewrite I10. lra.
    + lia.
    + assert (lay + h = 0 /\ L + h = 10) as [-> ->] by lia. f_equal. rewrite I10, I3. change (INR 0) with 0%R. lra.
    + f_equal. replace (L + h) with (10 + (lay + h)) by lia. rewrite (plus_INR 10), I10, I3. lra.
Qed.
End Raise.
