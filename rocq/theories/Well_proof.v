From Coq Require Import Reals Lra Permutation.
From Verif Require Import RealAux Grid Perc_model Perc_spec Perc_proof Volume_model Volume_spec UVol_proof SMerge_model SMerge_proof
  Groups_model Groups_spec Groups_proof Groups2_proof Surface_model Surface_spec Objects_model Objects_spec Objects1_proof Objects2_proof Stack_model Stack_spec Stack4_proof Final_model Final_spec Final1_proof
  Unstr_model Unstr_spec Unstr1_proof Unstr2_proof Unstr4_proof MMerge_model MMerge_spec MMerge_proof Tile_spec Tile_proof Paint_spec Paint_proof Tidy_proof Well_model Well_spec.
Notation between := Objects_spec.between.
Notation up := Tile_proof.up.
Open Scope R_scope.

(* ---------- drawing ---------- *)
Definition corners (pts : list pt) (ids : list nat) (p : list pt) : Prop := Forall2 (fun i q => nth_error pts i = Some q) ids p.

Lemma plain_decode ty n (cells : list (list nat)) : ty <> 42%nat -> Forall (fun c => length c = n) cells ->
  decode (map (fun _ => ty) cells) (flat_map (fun c => n :: c) cells) = Some (map (Plain ty) cells).
Proof.
  intros Ht. induction cells as [|c cells IH]; intros H; cbn [map flat_map app decode]; [reflexivity|].
  inversion H as [|? ? Hc Hcs]; subst. rewrite app_length.
  destruct (Nat.ltb_spec (length c + length (flat_map (fun c0 => length c :: c0) cells)) (length c)); [lia|].
  rewrite firstn_app, firstn_all, Nat.sub_diag, skipn_app, skipn_all, Nat.sub_diag. cbn [firstn skipn app]. rewrite app_nil_r.
  rewrite IH by auto. unfold decode_cell. destruct (Nat.eqb_spec ty 42); [contradiction|reflexivity].
Qed.

Lemma plain_drawn {D} ty n pts (cells : list (list nat)) ps pd cd gh ic : polygon_type ty n -> Forall (fun c => length c = n) cells ->
  Forall2 (corners pts) cells ps ->
  drawn (mkUvol pts (flat_map (fun c => n :: c) cells) (map (fun _ => ty) cells) pd cd gh ic : uvol D) ps.
Proof.
  intros Ht HL HF. exists (map (Plain ty) cells). split.
  { apply (plain_decode ty n cells); [unfold polygon_type in Ht; lia|exact HL]. }
  cbn [uv_pts]. induction HF as [|c p cells ps Hp HF IH]; cbn [map]; constructor; inversion HL; subst; [|auto].
  exists ty, c. split; [auto|]. rewrite <- (Forall2_len _ _ _ Hp). auto.
Qed.

Definition quads (F : nat -> nat -> pt) (nx ny : nat) : list (list pt) :=
  flat_map (fun j => map (fun i => [F i j; F (S i) j; F (S i) (S j); F i (S j)]) (seq 0 nx)) (seq 0 ny).

Lemma Forall2_flat_map {A B C} (P : B -> C -> Prop) (f : A -> list B) (g : A -> list C) l :
  (forall a, In a l -> Forall2 P (f a) (g a)) -> Forall2 P (flat_map f l) (flat_map g l).
Proof.
  induction l as [|a l IH]; intros H; cbn [flat_map]; [constructor|]. apply Forall2_app; [apply H; now left|]. apply IH. intros; apply H; now right.
Qed.
Lemma Forall2_map2 {A B C} (P : B -> C -> Prop) (f : A -> B) (g : A -> C) l :
  (forall a, In a l -> P (f a) (g a)) -> Forall2 P (map f l) (map g l).
Proof. induction l as [|a l IH]; intros H; cbn [map]; constructor; [apply H; now left|]. apply IH. intros; apply H; now right. Qed.

Lemma cast_drawn {D} (g : sgrid unit) nx ny F : sg_dims g = (S nx, S ny, 1%nat) ->
  (forall i j, (i <= nx)%nat -> (j <= ny)%nat -> node g i j = Some (F i j)) -> drawn (cast_grid g : uvol D) (quads F nx ny).
Proof.
  intros Dm N. unfold cast_grid. rewrite Dm. cbn [Nat.sub]. rewrite !Nat.sub_0_r.
  assert (N' : forall i j, (i <= nx)%nat -> (j <= ny)%nat -> nth_error (sg_pts g) (i + S nx * j) = Some (F i j)).
  { intros i j Hi Hj. specialize (N i j Hi Hj). unfold node, at_coord in N. rewrite Dm in N. unfold fidx in N.
    rewrite Nat.mul_0_r, Nat.add_0_r in N. exact N. }
  apply plain_drawn; [unfold polygon_type; lia| |].
  - apply Forall_forall. intros c Hc. apply in_flat_map in Hc as (j & _ & Hc). apply in_map_iff in Hc as (i & <- & _). reflexivity.
  - unfold quads. apply Forall2_flat_map. intros j Hj. apply in_seq in Hj. apply Forall2_map2. intros i Hi. apply in_seq in Hi.
    repeat constructor; apply N'; lia.
Qed.

Lemma fan_drawn {D} (m : tmesh) n c (F : nat -> pt) : length (t_cells m) = n ->
  (forall k, (k < n)%nat -> nth_error (t_cells m) k = Some [0; S k; S (S k)]%nat) -> nth_error (t_pts m) 0 = Some c ->
  (forall k, (k <= n)%nat -> nth_error (t_pts m) (S k) = Some (F k)) ->
  drawn (cast_fan m : uvol D) (map (fun k => [c; F k; F (S k)]) (seq 0 n)).
Proof.
  intros L Hc H0 HF. unfold cast_fan. apply plain_drawn; [unfold polygon_type; lia| |].
  - apply Forall_forall. intros x Hx. apply In_nth_error in Hx as (k & Hk). assert (k < n)%nat by (rewrite <- L; apply nth_error_Some; congruence).
    rewrite Hc in Hk by auto. injection Hk as <-. reflexivity.
  - apply Forall2_nth; [now rewrite map_length, seq_length|]. intros k a b Ha Hb.
    assert (k < n)%nat by (rewrite <- L; apply nth_error_Some; congruence). rewrite Hc in Ha by auto. injection Ha as <-.
    rewrite nth_error_map, nth_error_seq in Hb. destruct (Nat.ltb_spec k n); [|lia]. injection Hb as <-.
    cbn [plus]. repeat constructor; auto; apply HF; lia.
Qed.

(* tidy meshes draw triangles and quadrilaterals *)
Lemma tidy_types {D} (g : uvol D) ps : drawn g ps -> tidy g -> exists cells, cells_of g cells /\
  Forall2 (fun c p => exists ty ids, c = Plain ty ids /\ ((ty = 5 /\ length p = 3) \/ (ty = 9 /\ length p = 4))%nat /\
    Forall2 (fun i q => nth_error (uv_pts g) i = Some q) ids p) cells ps.
Proof.
  intros (cells & Hc & HF) (cells' & Hc' & HS & _). unfold cells_of in *. assert (cells' = cells) by congruence. subst cells'.
  exists cells. split; [exact Hc|]. clear -HF HS. revert HS. induction HF as [|c p cells ps (ty & ids & -> & Ht & HI) HF IH]; intros HS; constructor; inversion HS as [|? ? Hs HS']; subst; auto.
  exists ty, ids. split; [auto|]. split; [|auto]. destruct Hs as (ids' & [[= -> _]|[= -> _]]); unfold polygon_type in Ht; lia.
Qed.
Lemma tidy_corners {D} (g : uvol D) pss ps : drawn g pss -> tidy g -> In ps pss -> (length ps = 3 \/ length ps = 4)%nat.
Proof.
  intros Hd Ht Hin. destruct (tidy_types g pss Hd Ht) as (cells & _ & HF). apply In_nth_error in Hin as (i & Hi).
  destruct (Forall2_get_r _ _ _ HF i ps Hi) as (c & _ & ty & ids & _ & H & _). lia.
Qed.

(* ---------- two meshes one after the other ---------- *)
Lemma appended_drawn {D} (a b g : uvol D) pa pb : appended [a; b] g -> drawn a pa -> drawn b pb -> drawn g (pa ++ pb).
Proof.
  intros (HC & _) (ca & Ca & Fa) (cb & Cb & Fb). destruct (HC [ca; cb]) as (f & Hc & Hf); [repeat constructor; auto|].
  cbn [stacked flat_map] in Hc, Hf. rewrite !app_nil_r in Hc, Hf. eexists. split; [exact Hc|].
  rewrite map_app. rewrite flat_map_app in Hf. apply Forall2_app.
  - rewrite !map_map.
    assert (K : forall c ids i, In c ca -> c = Plain (vtype c) ids -> In i ids -> forall p, nth_error (uv_pts a) i = Some p -> nth_error (uv_pts g) (f (0 + i)%nat) = Some p).
    { intros c ids i Hc' E Hi p Hp. apply Hf.
      - apply in_or_app. left. apply in_flat_map. exists (rename (fun i => 0 + i)%nat c). split; [apply in_map; auto|].
        rewrite E. cbn [rename vcell_ids]. apply in_map. auto.
      - cbn [plus]. rewrite nth_error_app1; auto. apply nth_error_Some. congruence. }
    clear -Fa K. induction Fa as [|c p ca pa (ty & ids & -> & Hty & Hp) Fa IH]; cbn [map]; constructor.
    + exists ty, (map f (map (fun i => (0 + i)%nat) ids)). split; [reflexivity|]. split; [exact Hty|].
      assert (K' : forall i, In i ids -> forall p, nth_error (uv_pts a) i = Some p -> nth_error (uv_pts g) (f (0 + i)%nat) = Some p).
      { intros i Hi. exact (K (Plain ty ids) ids i (or_introl eq_refl) eq_refl Hi). }
      clear -Hp K'. induction Hp; cbn [map]; constructor; [apply K'; [now left|assumption]|]. apply IHHp. intros; apply K'; [now right|assumption].
    + apply IH. intros. eapply K; eauto. now right.
  - rewrite !map_map.
    assert (K : forall c ids i, In c cb -> c = Plain (vtype c) ids -> In i ids -> forall p, nth_error (uv_pts b) i = Some p ->
      nth_error (uv_pts g) (f (0 + length (uv_pts a) + i)%nat) = Some p).
    { intros c ids i Hc' E Hi p Hp. apply Hf.
      - apply in_or_app. right. apply in_flat_map. exists (rename (fun i => 0 + length (uv_pts a) + i)%nat c). split; [apply in_map; auto|].
        rewrite E. cbn [rename vcell_ids]. apply in_map_iff. exists i. auto.
      - cbn [plus]. rewrite nth_error_app2 by lia. replace (length (uv_pts a) + i - length (uv_pts a))%nat with i by lia. now rewrite app_nil_r. }
    clear -Fb K. induction Fb as [|c p cb pb (ty & ids & -> & Hty & Hp) Fb IH]; cbn [map]; constructor.
    + exists ty, (map f (map (fun i => (0 + length (uv_pts a) + i)%nat) ids)). split; [reflexivity|]. split; [exact Hty|].
      assert (K' : forall i, In i ids -> forall p, nth_error (uv_pts b) i = Some p -> nth_error (uv_pts g) (f (0 + length (uv_pts a) + i)%nat) = Some p).
      { intros i Hi. exact (K (Plain ty ids) ids i (or_introl eq_refl) eq_refl Hi). }
      clear -Hp K'. induction Hp; cbn [map]; constructor; [apply K'; [now left|assumption]|]. apply IHHp. intros; apply K'; [now right|assumption].
    + apply IH. intros. eapply K; eauto. now right.
Qed.

(* ---------- what is shown ---------- *)
Lemma wf_bare {D} (g : uvol D) labels ps : drawn g ps -> uv_cd g = [] -> wf_mesh (mkMM g labels).
Proof.
  intros (cells & Hc & _) E. split; [eauto|]. cbn [mm_vol]. rewrite E. split; [constructor|]. intros k v [].
Qed.

Lemma shows_part {D} (int : D -> Z) o (g : uvol D) k ps : k <> ""%string -> drawn g ps ->
  shows int o (mkMM g None, k) (map (pair k) ps).
Proof.
  intros Hk Hd. split.
  - cbn [fst mm_vol]. rewrite map_map. cbn [snd]. rewrite map_id. exact Hd.
  - intros c k1 Hc k'. cbn [fst snd]. unfold had_groups. cbn [mm_labels mm_vol].
    assert (k1 = k).
    { rewrite map_map in Hc. cbn [fst] in Hc. rewrite nth_error_map in Hc. destruct (nth_error ps c); [|discriminate]. now injection Hc as <-. }
    subst k1. unfold the_default. destruct (String.eqb_spec k ""); [contradiction|].
    destruct (entry_of "CellGroup"%string (uv_cd g)); (split; [intros H; inversion H; [discriminate|reflexivity]|intros ->; constructor; discriminate]).
Qed.

Lemma named_unique labels cg names : numbered labels -> get_cell_group (Some cg) (Some labels) = Ok (Some (inl names)) ->
  forall c k k', nth_error names c = Some k -> (label_of cg labels c k' <-> k' = k).
Proof.
  intros (HN & HV) H. unfold get_cell_group in H. destruct (mapM _ cg) as [ns|] eqn:EM; [|discriminate]. cbn [bind] in H. injection H as ->.
  apply mapM_Ok in EM. intros c k k' Hk.
  assert (L : Forall2 (fun x y => match inv_get x labels with Some k => Ok k | None => Err KeyError end = Ok y) cg names) by exact EM.
  destruct (Forall2_get_r _ _ _ L c k Hk) as (v & Hv & E).
  assert (HVN : NoDup (map snd labels)).
  { rewrite HV. apply FinFun.Injective_map_NoDup; [intros x y E'; lia|apply seq_NoDup]. }
  assert (HI : In (k, v) labels).
  { destruct (inv_get v labels) as [k0|] eqn:EI; [|discriminate]. injection E as ->. revert EI. clear. revert k.
    induction labels as [|[a b] l IH]; cbn [inv_get]; intros k E; [discriminate|].
    destruct (inv_get v l) as [k1|] eqn:E1; [injection E as ->; right; auto|].
    destruct (Z.eqb_spec b v); [injection E as ->; subst; now left|discriminate]. }
  split.
  - intros (v' & Hv' & HI'). rewrite Hv in Hv'. injection Hv' as <-. clear -HVN HI HI'.
    induction labels as [|[a b] l IH]; [destruct HI|]. cbn [map snd] in HVN. inversion HVN as [|? ? Hnot HVN']; subst.
    destruct HI as [E|HI], HI' as [E'|HI']; auto; [congruence| |].
    + injection E as -> ->. destruct Hnot. apply in_map_iff. exists (k', v). auto.
    + injection E' as -> ->. destruct Hnot. apply in_map_iff. exists (k, v). auto.
  - intros ->. exists v. auto.
Qed.

Lemma shows_named {D} (int : D -> Z) o (g : uvol D) labels d l : ignore_groups o = [] -> numbered labels ->
  drawn g (map snd l) -> names_of int g labels (map fst l) -> shows int o (mkMM g (Some labels), d) l.
Proof.
  intros Ho Hn Hd (cg & Hl & Hg). split; [exact Hd|]. intros c k Hk k'. cbn [fst snd]. unfold had_groups. cbn [mm_labels mm_vol].
  rewrite Hl, Ho. pose proof (named_unique labels (map int cg) (map fst l) Hn Hg c k) as U. split.
  - intros H. inversion H as [cg' labels' k1 E HL _|HD]; subst.
    + injection E as <- <-. apply (U k' Hk). auto.
    + destruct (HD _ _ k eq_refl). apply (U k Hk). reflexivity.
  - intros ->. eapply bn_label; [reflexivity| |intros []]. apply (U k Hk). reflexivity.
Qed.

(* ---------- rotations ---------- *)
Lemma rotate_drawn {D} a (m : mmesh D) ps : drawn (mm_vol m) ps -> drawn (mm_vol (rotate_z a m)) (map (map (rotz a)) ps).
Proof.
  intros (cells & Hc & HF). exists cells. split; [exact Hc|]. cbn [rotate_z mm_vol uv_pts].
  clear Hc. induction HF as [|c p cells ps (ty & ids & -> & Hty & Hp) HF IH]; cbn [map]; constructor; [|apply IH].
  exists ty, ids. split; [auto|]. rewrite map_length. split; [exact Hty|]. clear -Hp. induction Hp; cbn [map]; constructor; auto. rewrite nth_error_map, H. reflexivity.
Qed.

(* ---------- areas of grids and fans ---------- *)
Definition areas_of (ps : list (list pt)) : R := sum_list (map polygon_area ps).
Lemma areas_of_app l m : areas_of (l ++ m) = areas_of l + areas_of m.
Proof. unfold areas_of. now rewrite map_app, sum_list_app. Qed.
Lemma sum_list_seq n (f : nat -> R) : sum_list (map f (seq 0 n)) = sum_to n f.
Proof.
  induction n as [|n IH]; [reflexivity|]. rewrite seq_S, map_app, sum_list_app, IH. cbn [sum_to map plus]. unfold sum_list. cbn [fold_right]. ring.
Qed.
Lemma sum_swap n m (f : nat -> nat -> R) : sum_to n (fun i => sum_to m (f i)) = sum_to m (fun j => sum_to n (fun i => f i j)).
Proof.
  induction n as [|n IH]; cbn [sum_to].
  - induction m as [|m IHm]; cbn [sum_to]; [reflexivity|]. rewrite <- IHm. ring.
  - rewrite IH, <- Tile_proof.sum_plus. reflexivity.
Qed.
Lemma quads_area g nx ny F : sg_dims g = (S nx, S ny, 1%nat) ->
  (forall i j, (i <= nx)%nat -> (j <= ny)%nat -> node g i j = Some (F i j)) -> areas_of (quads F nx ny) = mesh_area (g : sgrid unit).
Proof.
  intros Dm N. unfold mesh_area. rewrite Dm. cbn [Nat.sub]. rewrite !Nat.sub_0_r. rewrite sum_swap.
  transitivity (sum_to ny (fun j => sum_to nx (fun i => polygon_area [F i j; F (S i) j; F (S i) (S j); F i (S j)]))).
  - unfold quads. clear N Dm. induction ny as [|ny IH]; [reflexivity|]. rewrite seq_S, flat_map_app, areas_of_app, IH. cbn [flat_map sum_to plus].
    rewrite app_nil_r. f_equal. unfold areas_of. rewrite map_map. apply sum_list_seq.
  - apply sum_ext. intros j Hj. apply sum_ext. intros i Hi. unfold cell_area. rewrite !N by lia. unfold polygon_area, twice_area4.
    cbn [fan_sum]. do 2 f_equal. ring.
Qed.
Lemma quads_length F nx ny : length (quads F nx ny) = (nx * ny)%nat.
Proof.
  unfold quads. rewrite (flat_map_seq_length _ _ _ nx); [lia|]. intros. now rewrite map_length, seq_length.
Qed.
Lemma quads_all (P : pt -> Prop) F nx ny : (forall i j, (i <= nx)%nat -> (j <= ny)%nat -> P (F i j)) -> Forall (Forall P) (quads F nx ny).
Proof.
  intros H. apply Forall_forall. intros p Hp. apply in_flat_map in Hp as (j & Hj & Hp). apply in_map_iff in Hp as (i & <- & Hi).
  apply in_seq in Hi, Hj. repeat constructor; apply H; lia.
Qed.

Lemma cast_tidy {D} (g : sgrid unit) nx ny : sg_dims g = (S (S nx), S (S ny), 1%nat) -> length (sg_ghost g) = n_cells (sg_dims g) ->
  tidy (cast_grid g : uvol D).
Proof.
  intros Dm Hg. rewrite Dm in Hg. unfold n_cells, cell_shape, size3 in Hg. unfold cast_grid. rewrite Dm. cbn [Nat.sub] in *. rewrite ?Nat.sub_0_r in *.
  set (cells := flat_map (fun j => map _ _) _).
  exists (map (Plain 9) cells). split; [|split].
  - apply (plain_decode 9 4 cells); [lia|]. apply Forall_forall. intros c Hc. apply in_flat_map in Hc as (j & _ & Hc). apply in_map_iff in Hc as (i & <- & _). reflexivity.
  - apply Forall_map. apply Forall_forall. intros c _. exists c. auto.
  - right. cbn [uv_ghost]. rewrite map_length, Hg. unfold cells.
    assert (L : forall a n, length (flat_map (fun j => map (fun i => [i + S (S nx) * j; S i + S (S nx) * j; S i + S (S nx) * S j; i + S (S nx) * S j]%nat) (seq 0 (S nx))) (seq a n)) = (n * S nx)%nat).
    { intros a n. revert a. induction n as [|n IH]; intros a; cbn [seq flat_map]; [reflexivity|]. rewrite app_length, map_length, IH. cbn [length]. rewrite seq_length. lia. }
    rewrite L. lia.
Qed.
Lemma fan_tidy {D} (m : tmesh) : Forall (fun c => length c = 3%nat) (t_cells m) -> tidy (cast_fan m : uvol D).
Proof.
  intros H. exists (map (Plain 5) (t_cells m)). split; [apply (plain_decode 5 3); [lia|exact H]|]. split; [|left; reflexivity].
  apply Forall_map. apply Forall_forall. intros c _. exists c. auto.
Qed.

Lemma surface_ghost areas a b plane s g : StructuredSurface areas a b plane s = Ok g -> length (sg_ghost g) = n_cells (sg_dims g).
Proof.
  unfold StructuredSurface, generate_surface_from_two_lines. cbn [get_points bind]. destruct (negb _); [discriminate|].
  destruct (resolution_to_perc _ _); [|discriminate]. cbn [bind]. destruct (surface_points _ _ _ _) as [[d pts]|]; [|discriminate]. cbn [bind].
  intros [= <-]. cbn [sg_ghost sg_dims]. now rewrite mask_set_length, repeat_length.
Qed.
Lemma translate_ghost {D} (g h : sgrid D) c : sg_translate g c = Ok h -> length (sg_ghost g) = n_cells (sg_dims g) -> length (sg_ghost h) = n_cells (sg_dims h).
Proof. unfold sg_translate. destruct (translate _ _); [|discriminate]. cbn [bind]. intros [= <-] H. exact H. Qed.
Lemma annular_ghost areas r r' a b rs ts c g : AnnularSector areas r r' a b rs ts c = Ok g -> length (sg_ghost g) = n_cells (sg_dims g).
Proof.
  unfold AnnularSector. destruct (negb _); [discriminate|]. destruct (generate_arc _ _ _ _ _); [|discriminate]. cbn [bind].
  destruct (generate_arc _ _ _ _ _); [|discriminate]. cbn [bind]. destruct (StructuredSurface _ _ _ _ _) eqn:E; [|discriminate]. cbn [bind].
  intros H. apply (translate_ghost _ _ _ H). eapply surface_ghost; eauto.
Qed.
Lemma rectangle_ghost areas dx dy xs ys c g : Rectangle areas dx dy xs ys c = Ok g -> length (sg_ghost g) = n_cells (sg_dims g).
Proof.
  unfold Rectangle, Quadrilateral. destruct (line_pts _ _ _ _); [|discriminate]. cbn [bind]. destruct (line_pts _ _ _ _); [|discriminate]. cbn [bind].
  destruct (StructuredSurface _ _ _ _ _) eqn:E; [|discriminate]. cbn [bind]. intros H. apply (translate_ghost _ _ _ H). eapply surface_ghost; eauto.
Qed.
Lemma sector_rectangle_ghost areas r dx dy rs ts c g h : SectorRectangle areas r dx dy rs ts c = Ok (g, h) ->
  length (sg_ghost g) = n_cells (sg_dims g) /\ length (sg_ghost h) = n_cells (sg_dims h).
Proof.
  unfold SectorRectangle. destruct (negb _); [discriminate|]. destruct (line_pts _ _ _ _); [|discriminate]. cbn [bind]. destruct (line_pts _ _ _ _); [|discriminate]. cbn [bind].
  destruct (generate_arc _ _ _ _ _); [|discriminate]. cbn [bind]. destruct (generate_arc _ _ _ _ _); [|discriminate]. cbn [bind].
  match goal with |- (let! _ := ?x in _) = _ -> _ => destruct x as [u|] eqn:E; [|discriminate] end. cbn [bind].
  match goal with |- (let! _ := ?x in _) = _ -> _ => destruct x as [v|] eqn:E'; [|discriminate] end. cbn [bind].
  unfold sg_translate2. cbn [fst snd]. destruct (sg_translate u c) eqn:F; [|discriminate]. cbn [bind]. destruct (sg_translate v c) eqn:F'; [|discriminate]. cbn [bind].
  intros [= <- <-]. split; eapply translate_ghost; eauto; eapply surface_ghost; eauto.
Qed.

(* a mesh without data made of n polygons in the zone k, with total area A *)
Definition a_part {D} (k : string) (g : uvol D) (n : nat) (A : R) : Prop :=
  exists ps, drawn g ps /\ uv_cd g = [] /\ length ps = n /\ areas_of ps = A /\ Forall (Forall (in_zone k)) ps /\ tidy g.

Lemma cast_part {D} k (g : sgrid unit) nx ny F A n : sg_dims g = (S nx, S ny, 1%nat) -> (0 < nx)%nat -> (0 < ny)%nat -> length (sg_ghost g) = n_cells (sg_dims g) ->
  (forall i j, (i <= nx)%nat -> (j <= ny)%nat -> node g i j = Some (F i j)) -> mesh_area g = A -> n = (nx * ny)%nat ->
  (forall i j, (i <= nx)%nat -> (j <= ny)%nat -> in_zone k (F i j)) -> a_part k (cast_grid g : uvol D) n A.
Proof.
  intros Dm Hx Hy Hg N HA -> HZ. exists (quads F nx ny). split; [now apply cast_drawn|]. split; [unfold cast_grid; rewrite Dm; reflexivity|].
  split; [apply quads_length|]. split; [now rewrite (quads_area g)|]. split; [now apply quads_all|].
  destruct nx as [|nx]; [lia|]. destruct ny as [|ny]; [lia|]. apply (cast_tidy g nx ny); auto.
Qed.

Lemma equally_times n : (0 < n)%nat -> equally (times_ (Z.of_nat n)) n.
Proof. intros H. split; [auto|]. split; [reflexivity|constructor]. Qed.

Lemma polar_zone k lo hi rho a : In (k, lo, hi) zones -> 0 <= lo <= rho -> rho <= hi -> rho <= 10 -> in_zone k (polar (0, 0, 0) rho a).
Proof.
  intros Hk Hlo Hhi H10. exists lo, hi. split; [auto|]. unfold polar.
  set (b := degrees a). pose proof (sin2_cos2 b) as E. unfold Rsqr in E.
  assert (E' : (0 + rho * cos b) * (0 + rho * cos b) + (0 + rho * sin b) * (0 + rho * sin b) = rho * rho).
  { replace ((0 + rho * cos b) * (0 + rho * cos b) + (0 + rho * sin b) * (0 + rho * sin b)) with (rho * rho * (sin b * sin b + cos b * cos b)) by ring. rewrite E. ring. }
  rewrite E'. split; [split; nra|]. split; [|split; [|reflexivity]]; apply Rabs_le; [pose proof (COS_bound b)|pose proof (SIN_bound b)]; split; nra.
Qed.

Definition eighth : R := sin (degrees (45 / 4)).
Lemma eighth_pos : 0 <= eighth.
Proof. pose proof PI_RGT_0. unfold eighth. apply sin_ge_0; unfold degrees; lra. Qed.

Lemma ring_part {D} areas k lo hi r r' n : In (k, lo, hi) zones -> 0 <= lo <= r -> r < r' -> r' <= hi -> r' <= 10 -> (0 < n)%nat ->
  exists g, AnnularSector areas r r' 0 90 (times_ (Z.of_nat n)) (times_ 8) None = Ok g /\
    a_part k (cast_grid g : uvol D) (8 * n) (4 * (r' * r' - r * r) * eighth).
Proof.
  intros Hk Hlo Hr Hhi H10 Hn. pose proof (equally_times n Hn) as En. pose proof (equally_times 8 ltac:(lia)) as E8. change (Z.of_nat 8) with 8%Z in E8.
  destruct (equally_proper _ _ En) as (p & Sp & _ & Pp & _). destruct (equally_proper _ _ E8) as (q & Sq & _ & Pq & _).
  destruct (annular_equal areas r r' 0 90 _ _ n 8 p None (0, 0, 0) ltac:(lra) Sp Pp E8 off_none) as (g & E & A).
  pose proof (proper_length _ _ Pp) as Lp. pose proof (proper_length _ _ Pq) as Lq.
  destruct (annular_ok areas r r' 0 90 _ _ p q None (0, 0, 0) ltac:(lra) Sp Sq ltac:(lia) off_none) as (g' & E' & Dm & _ & _ & _ & _ & N).
  assert (g' = g) by congruence. subst g'. exists g. split; [exact E|].
  apply (cast_part k g 8 n (fun i j => polar (0, 0, 0) (between (nth j p 0) r r') (between (nth i q 0) 0 90))).
  - now rewrite Dm, Lp, Lq.
  - lia.
  - lia.
  - eapply annular_ghost; eauto.
  - intros i j Hi Hj. apply N; [now apply (proper_at 8)|now apply (proper_at n)].
  - rewrite A. fold eighth. replace (INR 8) with 8 by (cbn; ring). replace (degrees ((90 - 0) / 8)) with (degrees (45 / 4)) by (unfold degrees; field).
    fold eighth. rewrite Rabs_right by (apply Rle_ge, eighth_pos). field.
  - reflexivity.
  - intros i j Hi Hj. pose proof (proper_range n p j Pp Hj). apply (polar_zone k lo hi); auto; unfold between; nra.
Qed.

Lemma core_part {D} k hi r : In (k, 0, hi) zones -> 0 < r -> r <= hi -> r <= 10 ->
  exists m, Sector r 0 90 (times_ 8) None = Ok m /\ a_part k (cast_fan m : uvol D) 8 (4 * (r * r) * eighth).
Proof.
  intros Hk Hr Hhi H10. pose proof (equally_times 8 ltac:(lia)) as E8. change (Z.of_nat 8) with 8%Z in E8.
  destruct (equally_proper _ _ E8) as (q & Sq & _ & Pq & _). pose proof (proper_length _ _ Pq) as Lq.
  destruct (sector_equal r 0 90 _ 8 None (0, 0, 0) Hr E8 off_none) as (m & E & A).
  destruct (sector_ok r 0 90 _ q None (0, 0, 0) Hr Sq ltac:(lia) off_none) as (m' & E' & L1 & N0 & N & L2 & N2).
  assert (m' = m) by congruence. subst m'. exists m. split; [exact E|]. rewrite Lq in *. cbn [Nat.sub] in *.
  set (F := fun k => polar (0, 0, 0) r (between (nth k q 0) 0 90)).
  assert (NF : forall k, (k <= 8)%nat -> nth_error (t_pts m) (S k) = Some (F k)) by (intros; apply N, (proper_at 8); auto).
  exists (map (fun k => [(0, 0, 0); F k; F (S k)]) (seq 0 8)). split; [apply fan_drawn; auto|]. split; [reflexivity|]. split; [now rewrite map_length, seq_length|].
  split.
  - transitivity (fan_area m).
    + unfold areas_of, fan_area. rewrite map_map, sum_list_seq, L2. apply sum_ext. intros i Hi. unfold triangle_area. rewrite N2, N0, !NF by lia.
      unfold polygon_area. cbn [fan_sum]. do 2 f_equal. ring.
    + rewrite A. replace (INR 8) with 8 by (cbn; ring). replace (degrees ((90 - 0) / 8)) with (degrees (45 / 4)) by (unfold degrees; field).
      fold eighth. rewrite Rabs_right by (apply Rle_ge, eighth_pos). field.
  - split; [|apply fan_tidy, Forall_forall; intros c Hc; apply In_nth_error in Hc as (i & Hi);
      assert (i < 8)%nat by (rewrite <- L2; apply nth_error_Some; congruence); rewrite N2 in Hi by auto; injection Hi as <-; reflexivity].
    apply Forall_forall. intros p Hp. apply in_map_iff in Hp as (i & <- & Hi).
    assert (Z : forall j, in_zone k (F j)) by (intros j; apply (polar_zone k 0 hi); auto; lra).
    repeat constructor; auto. exists 0, hi. split; [auto|]. rewrite Rabs_R0. nra.
Qed.

Lemma square_part {D} areas x0 y0 : (x0 = 0 \/ x0 = 5) -> (y0 = 0 \/ y0 = 5) -> (x0 = 5 \/ y0 = 5) ->
  exists g, Rectangle areas 5 5 (times_ 4) (times_ 4) (Some [x0; y0; 0]) = Ok g /\ a_part "Matrix" (cast_grid g : uvol D) 16 25.
Proof.
  intros Hx Hy Hxy. pose proof (equally_times 4 ltac:(lia)) as E4. change (Z.of_nat 4) with 4%Z in E4.
  destruct (equally_proper _ _ E4) as (q & Sq & _ & Pq & _). pose proof (proper_length _ _ Pq) as Lq.
  destruct (rectangle_area areas 5 5 _ _ 4 4 q q (Some [x0; y0; 0]) (x0, y0, 0) Sq Sq Pq Pq ltac:(lia) (off_three x0 y0 0)) as (g & E & A).
  destruct (rectangle_ok areas 5 5 _ _ q q (Some [x0; y0; 0]) x0 y0 0 Sq ltac:(lia) Sq (off_three x0 y0 0)) as (g' & E' & Dm & N).
  assert (g' = g) by congruence. subst g'. exists g. split; [exact E|].
  apply (cast_part "Matrix" g 4 4 (fun i j => (x0 + nth i q 0 * 5, y0 + nth j q 0 * 5, 0))).
  - now rewrite Dm, Lq.
  - lia.
  - lia.
  - eapply rectangle_ghost; eauto.
  - intros i j Hi Hj. apply N; now apply (proper_at 4).
  - rewrite A, Rabs_right; lra.
  - reflexivity.
  - intros i j Hi Hj. pose proof (proper_range 4 q j Pq Hj). pose proof (proper_range 4 q i Pq Hi).
    set (s := nth i q 0) in *. set (t := nth j q 0) in *.
    exists 1, 15. split; [unfold zones; cbn; tauto|].
    assert (0 <= x0 + s * 5 <= 10) by (destruct Hx; subst; lra). assert (0 <= y0 + t * 5 <= 10) by (destruct Hy; subst; lra).
    assert (5 <= x0 + s * 5 \/ 5 <= y0 + t * 5) by (destruct Hxy; subst; [left|right]; lra).
    set (X := x0 + s * 5) in *. set (Y := y0 + t * 5) in *. split; [split; [destruct H3; nra|nra]|].
    rewrite !Rabs_right by lra. lra.
Qed.

Lemma frame_zone t s X Y : 0 <= t <= 1 -> 0 <= s <= 1 -> (X, Y) = line_at (12 / 10) 5 5 t s ->
  1 <= X * X + Y * Y /\ 0 <= X <= 10 /\ 0 <= Y <= 10.
Proof.
  intros Ht Hs E. unfold line_at, seg2, arc, side, between in E. cbn [fst snd] in E. injection E as EX EY.
  set (m := degrees (45 * (1 - t))) in *. pose proof PI_RGT_0 as HP.
  assert (Hm : 0 <= m <= PI / 4) by (unfold m, degrees; split; nra).
  assert (S0 : 0 <= sin m) by (apply sin_ge_0; lra).
  assert (C0 : 7 / 10 <= cos m).
  { apply Rle_trans with (cos (PI / 4)); [|apply cos_decr_1; lra]. rewrite cos_PI4.
    pose proof (sqrt_sqrt 2 ltac:(lra)) as W. pose proof Rlt_sqrt2_0 as W0. set (w := sqrt 2) in *.
    assert (14 / 10 <= w) by (apply Rnot_lt_le; intros ?; nra).
    assert (1 / w = w / 2) as -> by (apply (Rmult_eq_reg_r w); [unfold Rdiv; rewrite Rmult_assoc, Rinv_l by lra; nra|lra]). lra. }
  pose proof (sin2_cos2 m) as E. unfold Rsqr in E. pose proof (SIN_bound m). pose proof (COS_bound m).
  assert (0 <= X <= 10) by (rewrite EX; split; nra). assert (0 <= Y <= 10) by (rewrite EY; split; nra).
  split; [|tauto].
  set (u := cos m) in *. set (v := sin m) in *.
  assert (D : 1 <= X * u + Y * v).
  { rewrite EX, EY. replace (((1 - s) * (12 / 10 * u) + s * 5) * u + ((1 - s) * (12 / 10 * v) + s * (5 * (1 - t))) * v)
      with ((1 - s) * (12 / 10) * (v * v + u * u) + s * (5 * u) + s * (1 - t) * (5 * v)) by ring. rewrite E.
    assert (0 <= s * (1 - t) * (5 * v)) by (apply Rmult_le_pos; nra). nra. }
  assert (Q : (X * u + Y * v) * (X * u + Y * v) <= X * X + Y * Y).
  { replace (X * X + Y * Y) with ((X * X + Y * Y) * (v * v + u * u)) by (rewrite E; ring). pose proof (Rle_0_sqr (X * v - Y * u)) as K. unfold Rsqr in K. nra. }
  nra.
Qed.

Section Well.
Context {D : Type} (num : Z -> D) (int : D -> Z) (Hint : forall z, int (num z) = z) (areas : shape3 -> list pt -> list R).
Context (pvmerge : list (uvol D) -> res (uvol D)) (Hmerge : appends pvmerge) (Htotal : forall x y, exists g, pvmerge [x; y] = Ok g).

Lemma frame_part : exists g, sector_rectangle_mesh areas pvmerge (12 / 10) 5 5 (mkSub (ResInt 8) (Some "log"%string)) (times_ 4) = Ok g /\
  a_part "Matrix" g 64 (25 - 4 * ((12 / 10) * (12 / 10) * eighth)).
Proof.
  assert (Hr : 0 < 12 / 10 < Rmin 5 5) by (rewrite Rmin_left; lra).
  pose proof (equally_times 4 ltac:(lia)) as E4. change (Z.of_nat 4) with 4%Z in E4.
  destruct (perc_proper 8 (Some "log"%string) Log ltac:(constructor)) as (p & Sp & Pp). change (Z.to_nat (Z.max 1 8)) with 8%nat in Pp.
  destruct (sector_rectangle_area areas (12 / 10) 5 5 (mkSub (ResInt 8) (Some "log"%string)) (times_ 4) p 8 4 None (0, 0, 0) Hr Sp Pp E4 off_none)
    as (g & h & E & _ & A).
  destruct (block_nodes areas (12 / 10) 5 5 (mkSub (ResInt 8) (Some "log"%string)) (times_ 4) p 8 4 None (0, 0, 0) Hr Sp Pp E4 off_none)
    as (g' & h' & E' & D1 & D2 & N).
  assert (g' = g) by congruence. assert (h' = h) by congruence. subst g' h'.
  unfold sector_rectangle_mesh. rewrite E. cbn [bind fst snd].
  destruct (Htotal (cast_grid g) (cast_grid h)) as (f & Hf). exists f. split; [exact Hf|].
  set (G := fun i j => up (0, 0, 0) (line_at (12 / 10) 5 5 (INR i / INR 4) (nth j p 0))).
  set (H := fun i j => up (0, 0, 0) (swap (line_at (12 / 10) 5 5 (INR i / INR 4) (nth j p 0)))).
  assert (Pt : forall i, (i <= 4)%nat -> 0 <= INR i / INR 4 <= 1).
  { intros i Hi. pose proof (pos_INR i). apply le_INR in Hi. replace (INR 4) with 4 in * by (cbn; ring). lra. }
  destruct (sector_rectangle_ghost _ _ _ _ _ _ _ _ _ E) as [Gg Gh].
  assert (PG : a_part "Matrix" (cast_grid g : uvol D) 32 (mesh_area g)).
  { apply (cast_part "Matrix" g 4 8 G); auto; [lia|intros i j Hi Hj; now apply N|].
    intros i j Hi Hj. unfold G, Tile_proof.up. destruct (line_at (12 / 10) 5 5 (INR i / INR 4) (nth j p 0)) as [X Y] eqn:EL. cbn [fst snd].
    destruct (frame_zone _ _ X Y (Pt i Hi) (proper_range 8 p j Pp Hj) (eq_sym EL)) as (Q1 & Q2 & Q3).
    exists 1, 15. split; [unfold zones; cbn; tauto|]. rewrite !Rplus_0_r, !Rabs_right by lra. nra. }
  assert (PH : a_part "Matrix" (cast_grid h : uvol D) 32 (mesh_area h)).
  { apply (cast_part "Matrix" h 4 8 H); auto; [lia|intros i j Hi Hj; now apply N|].
    intros i j Hi Hj. unfold H, Tile_proof.up. destruct (line_at (12 / 10) 5 5 (INR i / INR 4) (nth j p 0)) as [X Y] eqn:EL. unfold swap. cbn [fst snd].
    destruct (frame_zone _ _ X Y (Pt i Hi) (proper_range 8 p j Pp Hj) (eq_sym EL)) as (Q1 & Q2 & Q3).
    exists 1, 15. split; [unfold zones; cbn; tauto|]. rewrite !Rplus_0_r, !Rabs_right by lra. nra. }
  destruct PG as (pg & Dg & Cg & Lg & Ag & Zg & Tg), PH as (ph & Dh & Ch & Lh & Ah & Zh & Th).
  assert (Tf : tidy f) by (eapply merge_two_tidy; eauto).
  assert (K : forall a b : uvol D, uv_cd a = [] -> appended [a; b] f -> uv_cd f = []).
  { intros a b Ha (_ & _ & HK & _). destruct (uv_cd f) as [|[k v] r] eqn:Ef; [auto|].
    assert (In k (map fst (uv_cd a))) by (apply HK; [rewrite ?Ef; now left|now left]). rewrite Ha in H0. destruct H0. }
  replace (25 - 4 * (12 / 10 * (12 / 10) * eighth)) with (mesh_area g + mesh_area h).
  2:{ rewrite A. unfold eighth. replace (INR 4) with 4 by (cbn; ring). ring. }
  destruct (two_orders pvmerge _ _ _ Hmerge Hf) as [HA|HA].
  - exists (pg ++ ph). split; [eapply appended_drawn; eauto|]. split; [exact (K _ _ Cg HA)|]. split; [rewrite app_length; lia|].
    split; [rewrite areas_of_app; congruence|]. split; [apply Forall_app; auto|exact Tf].
  - exists (ph ++ pg). split; [eapply appended_drawn; eauto|]. split; [exact (K _ _ Ch HA)|]. split; [rewrite app_length; lia|].
    split; [rewrite areas_of_app, Ag, Ah; ring|]. split; [apply Forall_app; auto|exact Tf].
Qed.

(* the parts of the quarter: their polygons, in their zones *)
Definition part_shown (o : options) (it : mitem D) (l : list (string * list pt)) (n : nat) (A : R) : Prop :=
  wf_mesh (fst it) /\ shows int o it l /\ length l = n /\
  (forall k, named_area k l = if String.eqb (snd it) k then A else 0) /\ Forall (fun x => Forall (in_zone (fst x)) (snd x)) l /\
  tidy (mm_vol (fst it)) /\ (forall k, named_count k l = if String.eqb (snd it) k then n else 0%nat).

Lemma part_shows o g k n A : a_part k g n A -> k <> ""%string -> exists l, part_shown o (mkMM g None, k) l n A.
Proof.
  intros (ps & Hd & Hc & L & HA & HZ & HT) Hk. exists (map (pair k) ps). split; [eapply wf_bare; eauto|]. split; [now apply shows_part|].
  split; [now rewrite map_length|]. split.
  - intros k'. cbn [snd]. unfold named_area. destruct (String.eqb_spec k k') as [->|Hn].
    + rewrite <- HA. unfold total_area, areas_of. f_equal. clear. induction ps as [|p ps IH]; cbn [map filter fst]; [reflexivity|].
      rewrite String.eqb_refl. cbn [map snd]. now rewrite IH.
    + replace (filter _ _) with (@nil (string * list pt)); [reflexivity|]. clear -Hn. induction ps as [|p ps IH]; cbn [map filter fst]; [reflexivity|].
      destruct (String.eqb_spec k k'); [contradiction|exact IH].
  - split; [apply Forall_map; exact HZ|]. split; [exact HT|]. intros k'. cbn [snd]. unfold named_count. rewrite <- L. destruct (String.eqb_spec k k') as [->|Hn].
    + clear. induction ps as [|p ps IH]; cbn [map filter fst]; [reflexivity|]. rewrite String.eqb_refl. cbn [length]. now rewrite IH.
    + clear -Hn. induction ps as [|p ps IH]; cbn [map filter fst]; [reflexivity|]. destruct (String.eqb_spec k k'); [contradiction|exact IH].
Qed.
Lemma named_count_app {A} k (l m : list (string * A)) : named_count k (l ++ m) = (named_count k l + named_count k m)%nat.
Proof. unfold named_count. now rewrite filter_app, app_length. Qed.
Lemma named_count_perm {A} k (l m : list (string * A)) : Permutation l m -> named_count k l = named_count k m.
Proof.
  intros H. unfold named_count. induction H as [|x l m H IH|x y l|]; cbn [filter]; auto; try congruence.
  - destruct (String.eqb (fst x) k); cbn [length]; auto.
  - destruct (String.eqb (fst x) k), (String.eqb (fst y) k); auto.
Qed.
Lemma named_count_fst {A B} k (l : list (string * A)) (m : list (string * B)) : map fst l = map fst m -> named_count k l = named_count k m.
Proof.
  revert m. unfold named_count. induction l as [|[a x] l IH]; intros [|[b y] m]; cbn [map fst filter]; try discriminate; auto.
  intros [= -> E]. destruct (String.eqb b k); cbn [length]; rewrite (IH m E); auto.
Qed.

Lemma parts_ok o : exists items shown, well_parts areas pvmerge = Ok items /\ items <> [] /\
  Forall (fun it => wf_mesh (fst it)) items /\ Forall2 (shows int o) items shown /\
  length (concat shown) = 176%nat /\ Forall (fun x => Forall (in_zone (fst x)) (snd x)) (concat shown) /\
  named_area "Core" (concat shown) = 4 * (34 / 100 * (34 / 100)) * eighth /\
  named_area "Casing" (concat shown) = 4 * (445 / 1000 * (445 / 1000) - 34 / 100 * (34 / 100)) * eighth /\
  named_area "Cement" (concat shown) = 4 * (1 - 445 / 1000 * (445 / 1000)) * eighth /\
  named_area "Matrix" (concat shown) = 100 - 4 * eighth /\
  Forall (fun it => tidy (mm_vol (fst it))) items /\
  (named_count "Core" (concat shown) = 16 /\ named_count "Casing" (concat shown) = 8 /\
   named_count "Cement" (concat shown) = 32 /\ named_count "Matrix" (concat shown) = 120)%nat.
Proof.
  assert (Z1 : In ("Core"%string, 0, 34 / 100) zones) by (unfold zones; cbn; tauto).
  assert (Z2 : In ("Casing"%string, 34 / 100, 445 / 1000) zones) by (unfold zones; cbn; tauto).
  assert (Z3 : In ("Cement"%string, 445 / 1000, 1) zones) by (unfold zones; cbn; tauto).
  assert (Z4 : In ("Matrix"%string, 1, 15) zones) by (unfold zones; cbn; tauto).
  unfold well_parts.
  destruct (@core_part D "Core" (34 / 100) (34 / 100 - (445 / 1000 - 34 / 100)) Z1) as (m1 & -> & P1); [lra..|]. cbn [bind].
  destruct (@ring_part D areas "Core" 0 (34 / 100) (34 / 100 - (445 / 1000 - 34 / 100)) (34 / 100) 1 Z1) as (m2 & E2 & P2); [lra..|lia|]. cbn [Z.of_nat Pos.of_succ_nat] in E2. rewrite E2. cbn [bind].
  destruct (@ring_part D areas "Casing" (34 / 100) (445 / 1000) (34 / 100) (445 / 1000) 1 Z2) as (m3 & E3 & P3); [lra..|lia|]. cbn [Z.of_nat Pos.of_succ_nat] in E3. rewrite E3. cbn [bind].
  destruct (@ring_part D areas "Cement" (445 / 1000) 1 (445 / 1000) (445 / 1000 + (445 / 1000 - 34 / 100)) 1 Z3) as (m4 & E4 & P4); [lra..|lia|]. cbn [Z.of_nat Pos.of_succ_nat] in E4. rewrite E4. cbn [bind].
  destruct (@ring_part D areas "Cement" (445 / 1000) 1 (445 / 1000 + (445 / 1000 - 34 / 100)) (8 / 10) 2 Z3) as (m5 & E5 & P5); [lra..|lia|]. cbn [Z.of_nat Pos.of_succ_nat Pos.succ] in E5. rewrite E5. cbn [bind].
  destruct (@ring_part D areas "Cement" (445 / 1000) 1 (8 / 10) 1 1 Z3) as (m6 & E6 & P6); [lra..|lia|]. cbn [Z.of_nat Pos.of_succ_nat] in E6. rewrite E6. cbn [bind].
  destruct (@ring_part D areas "Matrix" 1 15 1 (12 / 10) 1 Z4) as (m7 & E7 & P7); [lra..|lia|]. cbn [Z.of_nat Pos.of_succ_nat] in E7. rewrite E7. cbn [bind].
  destruct frame_part as (m8 & -> & P8). cbn [bind].
  destruct (@square_part D areas 5 0) as (m9 & -> & P9); [tauto..|]. cbn [bind].
  destruct (@square_part D areas 5 5) as (m10 & -> & P10); [tauto..|]. cbn [bind].
  destruct (@square_part D areas 0 5) as (m11 & -> & P11); [tauto..|]. cbn [bind].
  destruct (part_shows o _ _ _ _ P1) as (l1 & W1 & S1 & L1 & A1 & F1 & T1 & K1); [discriminate|]. destruct (part_shows o _ _ _ _ P2) as (l2 & W2 & S2 & L2 & A2 & F2 & T2 & K2); [discriminate|]. destruct (part_shows o _ _ _ _ P3) as (l3 & W3 & S3 & L3 & A3 & F3 & T3 & K3); [discriminate|].
  destruct (part_shows o _ _ _ _ P4) as (l4 & W4 & S4 & L4 & A4 & F4 & T4 & K4); [discriminate|]. destruct (part_shows o _ _ _ _ P5) as (l5 & W5 & S5 & L5 & A5 & F5 & T5 & K5); [discriminate|]. destruct (part_shows o _ _ _ _ P6) as (l6 & W6 & S6 & L6 & A6 & F6 & T6 & K6); [discriminate|].
  destruct (part_shows o _ _ _ _ P7) as (l7 & W7 & S7 & L7 & A7 & F7 & T7 & K7); [discriminate|]. destruct (part_shows o _ _ _ _ P8) as (l8 & W8 & S8 & L8 & A8 & F8 & T8 & K8); [discriminate|]. destruct (part_shows o _ _ _ _ P9) as (l9 & W9 & S9 & L9 & A9 & F9 & T9 & K9); [discriminate|].
  destruct (part_shows o _ _ _ _ P10) as (l10 & W10 & S10 & L10 & A10 & F10 & T10 & K10); [discriminate|]. destruct (part_shows o _ _ _ _ P11) as (l11 & W11 & S11 & L11 & A11 & F11 & T11 & K11); [discriminate|].
  eexists. exists [l1; l2; l3; l4; l5; l6; l7; l8; l9; l10; l11]. split; [reflexivity|]. split; [discriminate|].
  split; [repeat (apply Forall_cons; [assumption|]); apply Forall_nil|].
  split; [repeat (apply Forall2_cons; [assumption|]); apply Forall2_nil|]. cbn [concat]. rewrite app_nil_r.
  split; [rewrite !app_length; lia|]. split; [rewrite !Forall_app; tauto|].
  rewrite !named_area_app, !A1, !A2, !A3, !A4, !A5, !A6, !A7, !A8, !A9, !A10, !A11. cbn [snd String.eqb Ascii.eqb Bool.eqb].
  split; [field|]. split; [field|]. split; [field|]. split; [field|].
  split; [repeat (apply Forall_cons; [assumption|]); apply Forall_nil|].
  rewrite !named_count_app, !K1, !K2, !K3, !K4, !K5, !K6, !K7, !K8, !K9, !K10, !K11. cbn [snd String.eqb Ascii.eqb Bool.eqb]. repeat split.
Qed.
(* ---------- quarter turns ---------- *)
Definition turned (a : R) (l : list (string * list pt)) : list (string * list pt) := map (fun x => (fst x, map (rotz a) (snd x))) l.
Definition quarter (f : pt -> pt) : Prop :=
  (forall x y z, f (x, y, z) = (x, y, z)) \/ (forall x y z, f (x, y, z) = (- y, x, z)) \/ (forall x y z, f (x, y, z) = (- x, - y, z)) \/ (forall x y z, f (x, y, z) = (y, - x, z)).

Lemma rotz_90 : quarter (rotz 90).
Proof.
  right; left. intros x y z. unfold rotz. replace (90 * PI / 180) with (PI / 2) by field. rewrite cos_PI2, sin_PI2. repeat f_equal; ring.
Qed.
Lemma rotz_180 : quarter (rotz 180).
Proof.
  right; right; left. intros x y z. unfold rotz. replace (180 * PI / 180) with PI by field. rewrite cos_PI, sin_PI. repeat f_equal; ring.
Qed.
Lemma rotz_270 : quarter (rotz 270).
Proof.
  right; right; right. intros x y z. unfold rotz. replace (270 * PI / 180) with (3 * (PI / 2)) by field. rewrite cos_3PI2, sin_3PI2. repeat f_equal; ring.
Qed.

Lemma quarter_within f tol p q : quarter f -> within tol p q -> within tol (f p) (f q).
Proof.
  destruct p as [[x y] z], q as [[x' y'] z']. intros Hf (A & B & C).
  assert (N : forall u v, Rabs (- u - - v) = Rabs (u - v)) by (intros; rewrite <- Rabs_Ropp; f_equal; ring).
  destruct Hf as [H|[H|[H|H]]]; rewrite !H; cbn; rewrite ?N; tauto.
Qed.
Lemma quarter_zone f k p : quarter f -> in_zone k p -> in_zone k (f p).
Proof.
  destruct p as [[x y] z]. intros Hf (lo & hi & Hk & A & B & C & E). exists lo, hi. split; [auto|].
  destruct Hf as [H|[H|[H|H]]]; rewrite !H; rewrite ?Rabs_Ropp; (split; [nra|tauto]).
Qed.
Lemma quarter_area f ps : quarter f -> polygon_area (map f ps) = polygon_area ps.
Proof.
  intros Hf. destruct ps as [|a t]; [reflexivity|]. cbn [map polygon_area]. do 2 f_equal. revert a.
  assert (T : forall a b c, twice_area3 (f a) (f b) (f c) = twice_area3 a b c).
  { intros [[x y] z] [[x' y'] z'] [[x'' y''] z'']. destruct Hf as [H|[H|[H|H]]]; rewrite !H; unfold twice_area3; ring. }
  induction t as [|b [|c t] IH]; intros a; try reflexivity. cbn [map fan_sum] in *. now rewrite T, IH.
Qed.
Lemma turned_area a k l : quarter (rotz a) -> named_area k (turned a l) = named_area k l.
Proof.
  intros Hf. unfold named_area, total_area, turned. induction l as [|[n p] l IH]; cbn [map filter fst]; [reflexivity|].
  destruct (String.eqb n k); cbn [map snd]; [|exact IH]. unfold sum_list in *. cbn [fold_right]. now rewrite IH, quarter_area.
Qed.

Context (clean : R -> uvol D -> uvol D) (e1 e2 : R) (He1 : cleans e1 (clean (/ 10 ^ 8))) (He2 : cleans e2 (clean (/ 10 ^ 4))).

Lemma within_trans d d' p q r : within d p q -> within d' q r -> within (d + d') p r.
Proof.
  destruct p as [[x y] z], q as [[x' y'] z'], r as [[x'' y''] z'']. intros (A & B & C) (A' & B' & C').
  assert (T : forall u v w c c', Rabs (u - v) <= c -> Rabs (v - w) <= c' -> Rabs (u - w) <= c + c').
  { intros u v w c c' H H'. replace (u - w) with ((u - v) + (v - w)) by ring. pose proof (Rabs_triang (u - v) (v - w)). lra. }
  repeat split; eapply T; eauto.
Qed.

Lemma rotated_wf a (m : mmesh D) : wf_mesh m -> wf_mesh (rotate_z a m).
Proof. intros H. exact H. Qed.

Lemma load_ok : exists g labels l, load_well_2d num int areas pvmerge clean = Ok (g, labels) /\
  drawn g (map snd l) /\ names_of int g labels (map fst l) /\ length l = 704%nat /\
  (forall k ps, In (k, ps) l -> exists qs, Forall (in_zone k) qs /\ Forall2 (within (e1 + e2)) qs ps) /\
  (e1 = 0 -> e2 = 0 ->
    named_area "Core" l = 16 * (34 / 100 * (34 / 100)) * eighth /\
    named_area "Casing" l = 16 * (445 / 1000 * (445 / 1000) - 34 / 100 * (34 / 100)) * eighth /\
    named_area "Cement" l = 16 * (1 - 445 / 1000 * (445 / 1000)) * eighth /\
    named_area "Matrix" l = 400 - 16 * eighth) /\
  (named_count "Core" l = 64 /\ named_count "Casing" l = 32 /\ named_count "Cement" l = 128 /\ named_count "Matrix" l = 480)%nat /\
  tidy g /\ wf_mesh (mkMM g (Some labels)) /\ numbered labels.
Proof.
  unfold load_well_2d. set (o := mk_options "" []).
  destruct (parts_ok o) as (items & shown & EP & Hne & HW & HS & HL & HZ & A1 & A2 & A3 & A4 & HTi & K1 & K2 & K3 & K4). rewrite EP. cbn [bind].
  destruct (merge_mesh_defined num int Hint o pvmerge Hmerge e1 _ He1 items HW Htotal) as [_ HD]. destruct (HD Hne) as ([q ql] & Eq). clear HD.
  rewrite Eq. cbn [bind fst snd].
  destruct (merged_shown num int Hint o pvmerge Hmerge e1 _ He1 items shown q ql HW HS Eq) as ((l0 & m0 & D0 & N0 & P0 & S0) & W0 & L0).
  set (m := mkMM q (Some ql)).
  assert (Sh0 : shows int o (m, ""%string) l0) by (apply shows_named; auto).
  assert (Sh : forall a, shows int o (rotate_z a m, ""%string) (turned a l0)).
  { intros a. apply (shows_named int o (mm_vol (rotate_z a m)) ql ""%string); auto.
    - unfold turned. rewrite map_map. cbn [snd]. rewrite <- (map_map snd (map (rotz a))). now apply rotate_drawn.
    - unfold turned. rewrite map_map. cbn [fst]. exact N0. }
  set (items2 := [(m, ""%string); (rotate_z 90 m, ""%string); (rotate_z 180 m, ""%string); (rotate_z 270 m, ""%string)]).
  assert (W2 : Forall (fun it => wf_mesh (fst it)) items2) by (repeat (apply Forall_cons; [exact W0|]); apply Forall_nil).
  assert (S2 : Forall2 (shows int o) items2 [l0; turned 90 l0; turned 180 l0; turned 270 l0]).
  { apply Forall2_cons; [exact Sh0|]. repeat (apply Forall2_cons; [apply Sh|]). apply Forall2_nil. }
  destruct (merge_mesh_defined num int Hint o pvmerge Hmerge e2 _ He2 items2 W2 Htotal) as [_ HD]. destruct (HD ltac:(discriminate)) as ([g labels] & Eg). clear HD.
  destruct (merged_shown num int Hint o pvmerge Hmerge e2 _ He2 items2 _ g labels W2 S2 Eg) as ((l & mv & Dg & Ng & Pg & Sg) & Wg & Lg).
  exists g, labels, l. split; [exact Eg|]. split; [exact Dg|]. split; [exact Ng|].
  assert (LL0 : length l0 = 176%nat). { rewrite <- (Forall2_len _ _ _ S0), <- (Permutation_length P0). exact HL. }
  split.
  { rewrite <- (Forall2_len _ _ _ Sg), <- (Permutation_length Pg). cbn [concat]. unfold turned. rewrite !app_length, !map_length, LL0. reflexivity. }
  split; [|split; [|split; [|split; [|split; [exact Wg|exact Lg]]]]].
  - intros k ps Hin.
    assert (H0 : forall k ps, In (k, ps) l0 -> exists qs, Forall (in_zone k) qs /\ Forall2 (within e1) qs ps).
    { intros k0 p0 Hp0. apply In_nth_error in Hp0 as (i & Hi). destruct (Forall2_get_r _ _ _ S0 i _ Hi) as ([k1 q0] & Hq & (E & HF)).
      cbn in E, HF. subst k1. exists q0. split; [|exact HF]. rewrite Forall_forall in HZ. apply (HZ (k0, q0)).
      eapply Permutation_in; [apply Permutation_sym; exact P0|]. eapply nth_error_In; eauto. }
    assert (HR : forall a, quarter (rotz a) -> forall k ps, In (k, ps) (turned a l0) -> exists qs, Forall (in_zone k) qs /\ Forall2 (within e1) qs ps).
    { intros a Ha k0 p0 Hp0. apply in_map_iff in Hp0 as ([k1 p1] & [= <- <-] & Hp1). destruct (H0 _ _ Hp1) as (qs & Q1 & Q2).
      exists (map (rotz a) qs). split.
      - apply Forall_map. eapply Forall_impl; [|exact Q1]. intros p. now apply quarter_zone.
      - cbn [snd]. clear -Q2 Ha. induction Q2; cbn [map]; constructor; auto. now apply quarter_within. }
    apply In_nth_error in Hin as (i & Hi). destruct (Forall2_get_r _ _ _ Sg i _ Hi) as ([k1 q0] & Hq & (E & HF)). cbn in E, HF. subst k1.
    assert (Hc : In (k, q0) (concat [l0; turned 90 l0; turned 180 l0; turned 270 l0])).
    { eapply Permutation_in; [apply Permutation_sym; exact Pg|]. eapply nth_error_In; eauto. }
    assert (exists qs, Forall (in_zone k) qs /\ Forall2 (within e1) qs q0) as (qs & Q1 & Q2).
    { cbn [concat] in Hc. rewrite app_nil_r, !in_app_iff in Hc.
      destruct Hc as [Hc|[Hc|[Hc|Hc]]]; [apply H0; auto|apply (HR _ rotz_90); auto|apply (HR _ rotz_180); auto|apply (HR _ rotz_270); auto]. }
    exists qs. split; [exact Q1|]. clear -Q2 HF. revert ps HF. induction Q2; intros ps HF; inversion HF; subst; constructor; eauto using within_trans.
  - intros E1 E2. rewrite E1 in S0. rewrite E2 in Sg. apply same_within_0 in S0, Sg. subst m0 mv.
    assert (HA : forall k, named_area k l = 4 * named_area k (concat shown)).
    { intros k. rewrite <- (named_area_perm k _ _ Pg). cbn [concat]. rewrite app_nil_r, !named_area_app.
      rewrite (turned_area 90 k l0 rotz_90), (turned_area 180 k l0 rotz_180), (turned_area 270 k l0 rotz_270), (named_area_perm k _ _ P0). ring. }
    rewrite !HA, A1, A2, A3, A4. repeat split; field.
  - assert (HA : forall k, named_count k l = (4 * named_count k (concat shown))%nat).
    { assert (Sw : forall t u v k, Forall2 (same_within t) u v -> named_count k u = named_count k v).
      { intros t u v k HF. apply named_count_fst. clear -HF. induction HF as [|x y u v [E _] _ IH]; cbn [map]; congruence. }
      assert (Tu : forall a k, named_count k (turned a l0) = named_count k l0).
      { intros a k. apply named_count_fst. unfold turned. rewrite map_map. reflexivity. }
      intros k. rewrite <- (Sw _ _ _ k Sg), <- (named_count_perm k _ _ Pg). cbn [concat]. rewrite app_nil_r, !named_count_app.
      rewrite !Tu, <- (Sw _ _ _ k S0), <- (named_count_perm k _ _ P0). lia. }
    rewrite !HA, K1, K2, K3, K4. repeat split.
  - assert (Tq : tidy q) by (eapply (merge_mesh_tidy num int o pvmerge Hmerge e1); eauto).
    assert (Tr : forall a, tidy (mm_vol (rotate_z a m))) by (intros a; exact Tq).
    eapply (merge_mesh_tidy num int o pvmerge Hmerge e2 _ He2 items2); [|exact Eg].
    repeat (apply Forall_cons; [first [exact Tq|apply Tr]|]). apply Forall_nil.
Qed.
End Well.
