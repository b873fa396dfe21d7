From Coq Require Import Reals Lra Lia Permutation Sorted.
From Verif Require Import RealAux Perc_model Volume_model Volume_spec Lines_spec Groups_model Groups_spec Groups_proof Groups2_proof
  Stack_model Stack_spec Stack3_proof Stack4_proof SMerge_proof Nodes_proof Final_model Final_spec Unstr_model Unstr_spec Unstr3_proof
  Topo_model Topo5_proof MMerge_model MMerge_spec MMerge_proof Paint_spec Paint_proof Tidy_proof Well_model Well_spec Well_proof
  Sweep_model Sweep_spec Sweep2_model Sweep2_spec Sweep2_proof Well3_model Well3_spec.
Open Scope nat_scope.

(* ---- the stream of flat cells ---- *)
Definition flat_of (c : vcell) : nat * list nat := match c with Plain ty ids => (ty, ids) | Poly _ => (42, []) end.
Lemma flat_cells_decode types : forall s cells, decode types s = Some cells -> Forall small cells ->
  flat_cells types s = Ok (map flat_of cells).
Proof.
  induction types as [|ty types IH]; intros s cells; cbn [decode flat_cells].
  { destruct s; [|discriminate]. intros [= <-] _. reflexivity. }
  destruct s as [|n s]; [discriminate|]. destruct (length s <? n); [discriminate|].
  destruct (decode_cell ty (firstn n s)) as [c|] eqn:Ec; [|discriminate].
  destruct (decode types (skipn n s)) as [cs|] eqn:E; [|discriminate]. intros [= <-] HS. inversion HS as [|? ? Hc HS']; subst.
  rewrite (IH _ _ E HS'). cbn [bind map]. unfold decode_cell in Ec. destruct Hc as (ids & Hc).
  destruct (ty =? 42).
  - exfalso. destruct (firstn n s) as [|nf b]; [discriminate|]. destruct (take_faces nf b) as [[fs [|? ?]]|]; try discriminate.
    injection Ec as <-. destruct Hc; discriminate.
  - injection Ec as <-. reflexivity.
Qed.

(* ---- rows of point data ---- *)
Section Rows.
Context {D : Type} (num : Z -> D) (int : D -> Z) (areas : shape3 -> list pt -> list R).
Context (pvmerge : list (uvol D) -> res (uvol D)) (clean : R -> uvol D -> uvol D).
Context (Hm : forall bs g, Forall point_rows bs -> pvmerge bs = Ok g -> point_rows g) (Hc : forall t g, point_rows g -> point_rows (clean t g)).

Lemma cast_grid_rows (g : sgrid unit) : rows (@cast_grid D g).
Proof. unfold cast_grid. destruct (sg_dims g) as [[nx ny] nz]. intros k x []. Qed.
Lemma cast_fan_rows m : rows (@cast_fan D m).
Proof. intros k x []. Qed.

Lemma parts_rows items : well_parts areas pvmerge = Ok items -> Forall (fun it => rows (mm_vol (fst it))) items.
Proof.
  unfold well_parts.
  do 11 (match goal with |- (let! _ := ?x in _) = _ -> _ => destruct x as [?|] eqn:?; [|discriminate]; cbn [bind] end).
  intros [= <-]. repeat (apply Forall_cons; [cbn [fst mm_vol]|]); try apply Forall_nil; try apply cast_grid_rows; try apply cast_fan_rows.
  match goal with H : sector_rectangle_mesh _ _ _ _ _ _ _ = Ok _ |- _ => revert H end.
  unfold sector_rectangle_mesh. destruct (SectorRectangle _ _ _ _ _ _ _) as [gh|]; [|discriminate]. cbn [bind]. intros H.
  apply (Hm _ _) in H; [exact H|]. repeat (apply Forall_cons; [apply cast_grid_rows|]). apply Forall_nil.
Qed.

Lemma well_rows g labels : load_well_2d num int areas pvmerge clean = Ok (g, labels) -> rows g.
Proof.
  unfold load_well_2d. destruct (well_parts _ _) as [items|] eqn:EP; [|discriminate]. cbn [bind].
  destruct (merge_mesh _ _ _ _ _ items) as [[q ql]|] eqn:Eq; [|discriminate]. cbn [bind fst snd]. intros Eg.
  assert (Rq : rows q). { eapply (merge_mesh_rows num int _ pvmerge (clean (/ 10 ^ 8)) items); eauto using parts_rows. exact (Hc _). }
  assert (Rr : forall a, rows (mm_vol (rotate_z a (mkMM q (Some ql))))). { intros a k x Hin. cbn. rewrite map_length. exact (Rq k x Hin). }
  eapply merge_mesh_rows; [| | |exact Eg]; [exact Hm|exact (Hc _)|].
  repeat (apply Forall_cons; [first [exact Rq|apply Rr]|]). apply Forall_nil.
Qed.
End Rows.

(* ---- the base mesh at height -30 ---- *)
Definition lowered {D} (num : Z -> D) (m : ubase D) : ubase D :=
  setp (uops num) (map (fun '(x, y, _) => (x, y, (- 30)%R)) (getp (uops num) m)) m.

Section Base.
Context {D : Type} (num : Z -> D) (int : D -> Z).
Context (g2 : uvol D) (groups : dict) (l : list (string * list (R * R * R))).
Context (Hd : drawn g2 (map snd l)) (Hn : names_of int g2 groups (map fst l)) (Ht : tidy g2) (Hw : wf_mesh (mkMM g2 (Some groups)))
  (Hnum : numbered groups) (Hr : rows g2) (Hl : l <> []).

Lemma base_ok : exists cells cg, cells_of g2 cells /\
  as_ubase int g2 groups = Ok (mkUbase (mkUsurf (uv_pts g2) (map flat_of cells) (uv_pd g2) (uv_cd g2)
      (match uv_ghost g2 with [] => None | gh => Some gh end)) (Some (map int cg)) (Some groups)) /\
  lookup "CellGroup"%string (uv_cd g2) = Some cg /\
  get_cell_group (Some (map int cg)) (Some groups) = Ok (Some (inl (map fst l))) /\
  length cells = length l /\ length cg = length l /\
  Forall2 (fun c p => exists ty ids, c = Plain ty ids /\ ((ty = 5 /\ length p = 3) \/ (ty = 9 /\ length p = 4)) /\
    Forall2 (fun i q => nth_error (uv_pts g2) i = Some q) ids p) cells (map snd l).
Proof.
  destruct (tidy_types g2 _ Hd Ht) as (cells & Hc & HF). destruct Hn as (cg & Hcg & Hg). change (@entry_of) with (@lookup) in Hcg. exists cells, cg.
  split; [exact Hc|]. pose proof (Forall2_len _ _ _ HF) as L. rewrite map_length in L.
  destruct Ht as (cells' & Hc' & HS & HG). unfold cells_of in Hc, Hc'. assert (cells' = cells) by congruence. subst cells'.
  split; [|split; [exact Hcg|split; [exact Hg|split; [exact L|split; [|exact HF]]]]].
  - unfold as_ubase. rewrite (flat_cells_decode _ _ _ Hc HS). cbn [bind]. rewrite Hcg. reflexivity.
  - destruct Hw as (_ & _ & HL). cbn [mm_vol] in HL. rewrite (HL _ _ (lookup_In _ _ _ Hcg)), <- L. symmetry. exact (decode_length _ _ _ Hc).
Qed.

Lemma lowered_regular cells cg : cells_of g2 cells -> length cells = length l -> length cg = length l ->
  Forall2 (fun c p => exists ty ids, c = Plain ty ids /\ ((ty = 5 /\ length p = 3) \/ (ty = 9 /\ length p = 4)) /\
    Forall2 (fun i q => nth_error (uv_pts g2) i = Some q) ids p) cells (map snd l) ->
  regular_ubase (length (uv_pts g2)) (map fst (map flat_of cells))
    (lowered num (mkUbase (mkUsurf (uv_pts g2) (map flat_of cells) (uv_pd g2) (uv_cd g2)
      (match uv_ghost g2 with [] => None | gh => Some gh end)) (Some (map int cg)) (Some groups))).
Proof.
  intros Hc L Lcg HF. destruct Hw as (_ & Hnd & HL). cbn [mm_vol] in Hnd, HL.
  assert (Lt : length (uv_types g2) = length cells) by (symmetry; exact (decode_length _ _ _ Hc)).
  unfold lowered. cbn [setp uops getp ub_surf us_pts us_cells us_pd us_cd us_ghost ub_cg ub_labels].
  split; [split; [|split]|].
  - intros c E. cbn in E. injection E as <-. cbn. rewrite !map_length. congruence.
  - exact Hnd.
  - cbn. intros base x Hb Hx. rewrite map_length. apply in_map_iff in Hb as (c & <- & Hin). apply In_nth_error in Hin as (i & Hi).
    destruct (Forall2_get _ _ _ HF i c Hi) as (p & _ & ty & ids & -> & _ & HI). cbn in Hx. apply In_nth_error in Hx as (j & Hj).
    destruct (Forall2_get _ _ _ HI j x Hj) as (q & _ & Hq). apply nth_error_Some. congruence.
  - split. { intros E. apply (f_equal (@length nat)) in E. rewrite !map_length in E. cbn in E. destruct l; [now apply Hl|cbn in L; lia]. }
    split; [cbn; now rewrite map_length|]. split; [reflexivity|]. split; [|split; [|split]]; cbn.
    + intros ct ids Hin. apply in_map_iff in Hin as (c & E & Hin). apply In_nth_error in Hin as (i & Hi).
      destruct (Forall2_get _ _ _ HF i c Hi) as (p & _ & ty & ids' & -> & [[-> _]|[-> _]] & _); injection E as <- _; auto.
    + intros k x Hin. exact (Hr k x Hin).
    + intros k x Hin. rewrite !map_length, (HL k x Hin). exact Lt.
    + intros gh E. rewrite !map_length. destruct Ht as (cells' & Hc' & _ & HG). unfold cells_of in Hc, Hc'. assert (cells' = cells) by congruence. subst cells'.
      destruct (uv_ghost g2) as [|a r]; [discriminate|]. injection E as <-. destruct HG as [HG|HG]; [discriminate|exact HG].
Qed.
End Base.

(* ---- names ---- *)
Lemma label_iff labels cg names c k : numbered labels -> get_cell_group (Some cg) (Some labels) = Ok (Some (inl names)) ->
  nth_error names c = Some k -> forall k', label_of cg labels c k' <-> k' = k.
Proof. intros Hn Hg Hk k'. exact (named_unique labels cg names Hn Hg c k k' Hk). Qed.

Lemma values_inj (labels : dict) k k' v : numbered labels -> In (k, v) labels -> In (k', v) labels -> k = k'.
Proof.
  intros (HN & HV) H H'. assert (HVN : NoDup (map snd labels)).
  { rewrite HV. apply FinFun.Injective_map_NoDup; [intros x y E'; lia|apply seq_NoDup]. }
  clear HV HN. induction labels as [|[a b] r IH]; [destruct H|]. cbn [map snd] in HVN. inversion HVN as [|? ? Hnot HVN']; subst.
  destruct H as [E|H], H' as [E'|H']; auto; [congruence| |].
  - injection E as -> ->. destruct Hnot. apply in_map_iff. exists (k', v). auto.
  - injection E' as -> ->. destruct Hnot. apply in_map_iff. exists (k, v). auto.
Qed.

(* the number of a name is that of the cells named so *)
Lemma number_iff labels cg names n k : numbered labels -> get_cell_group (Some cg) (Some labels) = Ok (Some (inl names)) ->
  dget k labels = Some n -> forall c v k', nth_error cg c = Some v -> nth_error names c = Some k' -> (v = n <-> k' = k).
Proof.
  intros Hn Hg Hk c v k' Hv Hk'. apply dget_In in Hk. destruct (proj2 (label_iff labels cg names c k' Hn Hg Hk' k') eq_refl) as (v' & Hv' & Hin).
  rewrite Hv in Hv'. injection Hv' as <-. split; intros ->; [eapply values_inj; eauto|].
  destruct Hn as [HN _]. apply In_dget in Hin; [|exact HN]. apply In_dget in Hk; [|exact HN]. congruence.
Qed.

(* ---- number of cells ---- *)
Definition tall (k : string) : bool := String.eqb k "Core" || String.eqb k "Casing".
Fixpoint expected (off : nat) (l : list (string * list (R * R * R))) : list (nat * nat) :=
  match l with
  | [] => []
  | x :: l' => map (pair off) (seq 0 (if tall (fst x) then 13 else 10)) ++ expected (S off) l'
  end.
Lemma tall_iff k : tall k = true <-> k = "Core"%string \/ k = "Casing"%string.
Proof. unfold tall. rewrite Bool.orb_true_iff, !String.eqb_eq. tauto. Qed.
Lemma in_expected l : forall off c L, In (c, L) (expected off l) <->
  exists k ps, nth_error l (c - off) = Some (k, ps) /\ off <= c /\ (L < 10 \/ L < 13 /\ (k = "Core" \/ k = "Casing")%string).
Proof.
  induction l as [|[k ps] l IH]; intros off c L; cbn [expected fst].
  { split; [intros []|]. intros (k & ps & H & _). destruct (c - off); discriminate. }
  rewrite in_app_iff, in_map_iff, IH. split.
  - intros [(L' & [= <- <-] & Hin)|(k' & ps' & Hn & Ho & H)].
    + apply in_seq in Hin. exists k, ps. rewrite Nat.sub_diag. split; [reflexivity|]. split; [lia|].
      destruct (tall k) eqn:E; [right; split; [lia|now apply tall_iff]|left; lia].
    + exists k', ps'. replace (c - off) with (S (c - S off)) by lia. split; [exact Hn|]. split; [lia|exact H].
  - intros (k' & ps' & Hn & Ho & H). destruct (Nat.eq_dec c off) as [->|Hne].
    + left. rewrite Nat.sub_diag in Hn. cbn in Hn. injection Hn as <- <-. exists L. split; [reflexivity|]. apply in_seq.
      destruct (tall k) eqn:E; [lia|]. destruct H as [H|[_ H]]; [lia|]. apply tall_iff in H. congruence.
    + right. exists k', ps'. replace (c - off) with (S (c - S off)) in Hn by lia. split; [exact Hn|]. split; [lia|exact H].
Qed.
Lemma expected_nodup l : forall off, NoDup (expected off l).
Proof.
  induction l as [|[k ps] l IH]; intros off; cbn [expected]; [constructor|].
  apply UVol_proof.NoDup_app_intro; [|apply IH|].
  - apply FinFun.Injective_map_NoDup; [intros x y [= ->]; reflexivity|apply seq_NoDup].
  - intros [c L] H1 H2. apply in_map_iff in H1 as (? & [= <- _] & _). apply in_expected in H2 as (? & ? & _ & H & _). lia.
Qed.
Lemma expected_length (l : list (string * list (R * R * R))) : forall off, length (expected off l) = 10 * length l + 3 * (named_count "Core"%string l + named_count "Casing"%string l).
Proof.
  induction l as [|[k ps] l IH]; intros off; [reflexivity|]. cbn [expected fst]. rewrite app_length, map_length, seq_length, IH.
  unfold named_count, tall. cbn [filter fst].
  destruct (String.eqb_spec k "Core") as [->|H1]; [cbn [String.eqb Ascii.eqb Bool.eqb orb]; cbn [length]; lia|].
  destruct (String.eqb_spec k "Casing") as [->|H2]; cbn [orb length]; lia.
Qed.
Lemma count_places (l : list (string * list (R * R * R))) place : NoDup place -> (forall c L, In (c, L) place <->
    exists k ps, nth_error l c = Some (k, ps) /\ (L < 10 \/ L < 13 /\ (k = "Core" \/ k = "Casing")%string)) ->
  length place = 10 * length l + 3 * (named_count "Core"%string l + named_count "Casing"%string l).
Proof.
  intros HN HP. rewrite <- (expected_length l 0). apply Permutation_length, NoDup_Permutation; [exact HN|apply expected_nodup|].
  intros [c L]. rewrite HP, in_expected, Nat.sub_0_r. split; intros (k & ps & H); exists k, ps; intuition lia.
Qed.

(* ---- picking ---- *)
Lemma picks_some {A} (l : list A) ids : (forall i, In i ids -> i < length l) -> exists xs, picks l ids xs.
Proof.
  induction ids as [|i ids IH]; intros H; [exists []; constructor|].
  destruct IH as [xs Hx]; [intros; apply H; now right|]. destruct (nth_error l i) as [x|] eqn:E.
  - exists (x :: xs). constructor; auto.
  - apply nth_error_None in E. specialize (H i (or_introl eq_refl)). lia.
Qed.
Lemma picked_group (labels : dict) cg names ids cg' : get_cell_group (Some cg) (Some labels) = Ok (Some (inl names)) ->
  picks cg ids cg' -> exists names', get_cell_group (Some cg') (Some labels) = Ok (Some (inl names')) /\ picks names ids names'.
Proof.
  unfold get_cell_group. destruct (mapM _ cg) as [ns|] eqn:EM; [|discriminate]. cbn [bind]. intros [= ->] H.
  apply mapM_Ok in EM. induction H as [|i v ids cg' Hi _ (names' & E & Hp)]; [exists []; split; [reflexivity|constructor]|].
  destruct (Forall2_get _ _ _ EM i v Hi) as (k & Hk & Ek). exists (k :: names'). split; [|constructor; auto].
  cbn [mapM]. rewrite Ek. destruct (mapM _ cg') as [ns'|]; [|discriminate]. cbn [bind] in E |- *. injection E as ->. reflexivity.
Qed.

Lemma four_names k p : in_zone k p -> In k ["Core"; "Casing"; "Cement"; "Matrix"]%string.
Proof.
  intros (lo & hi & Hz & _). unfold zones in Hz. cbn in Hz. cbn.
  destruct Hz as [Hz|[Hz|[Hz|[Hz|[]]]]]; injection Hz as <- _ _; auto.
Qed.

Lemma count_in {A} k (l : list (string * A)) : 0 < named_count k l -> exists c x, nth_error l c = Some (k, x).
Proof.
  induction l as [|[k' x] l IH]; unfold named_count; cbn [filter fst]; [cbn; lia|].
  destruct (String.eqb_spec k' k) as [->|H]; [intros _; exists 0, x; reflexivity|]. intros H'. destruct (IH H') as (c & y & E). exists (S c), y. exact E.
Qed.

Definition well_calls (a b : Z) : list ex_call :=
  [mkCall [0; 0; 30]%R (ResInt 10) None None None GNone;
   mkCall [0; 0; 3]%R (ResInt 3) None None None (GDict [("Inactive"%string, SelCall (either_group a b))])].
Definition well_vs : list (R * R * R) := [(0, 0, 30); (0, 0, 3)]%R.
Definition evenly (n : nat) : list R := map (fun k => INR k / INR n)%R (seq 0 (S n)).
Lemma well_shifts a b : shifts (well_calls a b) well_vs [evenly 10; evenly 3].
Proof.
  split; [reflexivity|]. split; [reflexivity|]. intros [|[|[|j]]] c v n Hc Hv Hn; try discriminate;
    injection Hc as <-; injection Hv as <-; injection Hn as <-; repeat (split; [reflexivity|]);
    (split; [|unfold evenly; rewrite map_length, seq_length; lia]).
  - refine (proj1 (even_perc (mkItem tt (ResInt 10) None 0%Z 0 GNone false) 10 _)).
    split; [reflexivity|]. right. exists 10%Z. split; reflexivity.
  - refine (proj1 (even_perc (mkItem tt (ResInt 3) None 0%Z 0 GNone false) 3 _)).
    split; [reflexivity|]. right. exists 3%Z. split; reflexivity.
Qed.
Lemma evenly_nth n k t : nth_error (evenly n) k = Some t -> t = (INR k / INR n)%R /\ k <= n.
Proof.
  unfold evenly. intros H. rewrite nth_error_map in H. destruct (nth_error (seq 0 (S n)) k) as [k'|] eqn:E; [|discriminate].
  assert (Hk : k < S n) by (rewrite <- (seq_length (S n) 0); apply nth_error_Some; congruence).
  rewrite (nth_error_nth' _ 0) in E by (rewrite seq_length; lia). rewrite seq_nth in E by lia. injection E as <-. injection H as <-. split; [reflexivity|lia].
Qed.
Lemma evenly_length n : length (evenly n) = S n.
Proof. unfold evenly. now rewrite map_length, seq_length. Qed.

Lemma nth_nodup {A} (l : list A) i j x : NoDup l -> nth_error l i = Some x -> nth_error l j = Some x -> i = j.
Proof.
  intros HN Hi Hj. rewrite NoDup_nth_error in HN. apply HN; [|congruence]. apply nth_error_Some. congruence.
Qed.
Lemma sorted_nodup l : StronglySorted lt l -> NoDup l.
Proof.
  induction 1 as [|a l HS IH HF]; constructor; auto. intros Hin. rewrite Forall_forall in HF. specialize (HF a Hin). lia.
Qed.
Lemma shift_z p j t x y z : nth_error well_vs j = Some (x, y, z) ->
  shifted p well_vs j (x, y, z) t =
  (let '(px, py, pz) := p in match j with 0 => (px, py, pz + t * 30) | _ => (px, py, pz + 30 + t * 3) end)%R.
Proof.
  destruct p as [[px py] pz]. destruct j as [|[|j]]; cbn [nth_error well_vs]; intros E; [| |destruct j; discriminate].
  - injection E as <- <- <-. unfold shifted. cbn [firstn vsum fold_right]. apply injective_projections; [apply injective_projections|]; cbn [fst snd]; ring.
  - injection E as <- <- <-. unfold shifted. cbn [firstn vsum fold_right well_vs]. apply injective_projections; [apply injective_projections|]; cbn [fst snd]; ring.
Qed.

Lemma NoDup_map_in {A B} (f : A -> B) l : (forall x y, In x l -> In y l -> f x = f y -> x = y) -> NoDup l -> NoDup (map f l).
Proof.
  intros H HN. induction HN as [|x l Hx HN IH]; cbn [map]; constructor.
  - intros Hin. apply in_map_iff in Hin as (y & E & Hy). apply H in E; [subst; contradiction|now right|now left].
  - apply IH. intros; apply H; auto; now right.
Qed.
