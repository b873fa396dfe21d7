From Verif Require Import RealAux Volume_model Volume_spec SMerge_model Groups_model Groups_spec
  Stack_model Stack_spec Stack6_proof Final_spec Unstr_model Unstr_spec Unstr4_proof MMerge_model MMerge_spec MMerge_proof.
From Coq Require Import Lra.
Open Scope nat_scope.

(* a triangle and a square in two groups; a triangle sharing an edge with the square, without groups *)
Definition my_first : mmesh Z :=
  mkMM (mkUvol [(0, 0, 0); (1, 0, 0); (1, 1, 0); (0, 1, 0); (2, 0, 0)]%R [4; 0; 1; 2; 3; 3; 1; 4; 2] [9; 5] []
    [("kh", [7; 8]%Z); ("CellGroup", [0; 1]%Z)]%string [0; 1] [])
    (Some [("sand", 0%Z); ("clay", 1%Z)]%string).
Definition my_second (ghost : list nat) : mmesh Z :=
  mkMM (mkUvol [(0, 1, 0); (1, 1, 0); (0, 2, 0)]%R [3; 0; 1; 2] [5] [] [("kh", [9]%Z); ("x", [1]%Z)]%string ghost []) None.
Definition my_items (ghost : list nat) : list (mitem Z) := [(my_first, EmptyString); (my_second ghost, "new"%string)].
Definition my_keep : uvol Z -> uvol Z := fun g => g.

Lemma my_wf ghost : Forall (fun it => wf_mesh (fst it)) (my_items ghost).
Proof.
  constructor; [|constructor; [|constructor]]; (split; [eexists; reflexivity|split]); cbn.
  - constructor; [intros [E|[]]; discriminate|constructor; [intros []|constructor]].
  - intros k v [[= <- <-]|[[= <- <-]|[]]]; reflexivity.
  - constructor; [intros [E|[]]; discriminate|constructor; [intros []|constructor]].
  - intros k v [[= <- <-]|[[= <- <-]|[]]]; reflexivity.
Qed.
Lemma my_total : forall x y : uvol Z, exists g, append_blocks [x; y] = Ok g.
Proof. intros x y. cbn. eauto. Qed.

(* C149: the cells of the merged mesh *)
Theorem C149_merged_cells :
  forall (D : Type) (num : Z -> D) (int : D -> Z) (Hint : forall z, int (num z) = z) o tol clean pvmerge items g labels,
  cleans tol clean -> appends pvmerge -> Forall (fun it => wf_mesh (fst it)) items ->
  merge_mesh num int o pvmerge clean items = Ok (g, labels) ->
  exists place, merged_from items place /\ cells_kept items tol place g.
Proof.
  intros D num int Hint o tol clean pvmerge items g labels Hc Hm HW H.
  destruct (merge_mesh_spec num int Hint o pvmerge Hm tol clean Hc items HW g labels H) as (place & ? & ? & _). eauto.
Qed.
Print Assumptions C149_merged_cells.

Theorem C149_merged_defined :
  forall (D : Type) (num : Z -> D) (int : D -> Z) (Hint : forall z, int (num z) = z) o tol clean pvmerge items,
  cleans tol clean -> appends pvmerge -> (forall x y, exists g, pvmerge [x; y] = Ok g) ->
  Forall (fun it => wf_mesh (fst it)) items ->
  (items = [] -> merge_mesh num int o pvmerge clean items = Err ValueError) /\
  (items <> [] -> exists r, merge_mesh num int o pvmerge clean items = Ok r).
Proof. intros D num int Hint o tol clean pvmerge items Hc Hm HT HW. eapply merge_mesh_defined; eauto. Qed.
Print Assumptions C149_merged_defined.

Lemma my_merged ghost : exists g labels, merge_mesh zz zz cx_opt append_blocks my_keep (my_items ghost) = Ok (g, labels).
Proof.
  destruct (C149_merged_defined Z zz zz (fun z => eq_refl) cx_opt 0 my_keep append_blocks (my_items ghost)) as [_ H];
    auto using append_blocks_appends, my_total, my_wf.
  { apply keep_cleans. lra. }
  destruct H as [[g labels] H]; [discriminate|]. eauto.
Qed.
Lemma my_place ghost place j c : merged_from (my_items ghost) place -> j + c < 2 -> exists i, nth_error place i = Some (j, c).
Proof.
  intros [_ HP] H. apply In_nth_error. apply HP. destruct j as [|[|]]; cbn in H; try lia; eexists; eexists; (split; [reflexivity|]); (split; [reflexivity|]); cbn; lia.
Qed.

Example C149_example : exists g labels cells i ids,
  merge_mesh zz zz cx_opt append_blocks my_keep (my_items []) = Ok (g, labels) /\
  cells_of g cells /\ nth_error cells i = Some (Plain 5 ids) /\
  exists v q, nth_error ids 2 = Some v /\ nth_error (uv_pts g) v = Some q /\ within 0 (0, 2, 0)%R q.
Proof.
  destruct (my_merged []) as (g & labels & H).
  destruct (C149_merged_cells Z zz zz (fun z => eq_refl) cx_opt 0 my_keep append_blocks (my_items []) g labels)
    as (place & HP & cells & Hc & _ & HC); auto using append_blocks_appends, my_wf.
  { apply keep_cleans. lra. }
  destruct (my_place [] place 1 0 HP) as (i & Hi); [lia|].
  destruct (HC i 1 0 Hi) as (it & cs & cell & f & Hit & Hcs & Hcell & Hci & Hp). injection Hit as <-.
  unfold cells_of in Hcs. cbn in Hcs. injection Hcs as <-. injection Hcell as <-. cbn [rename map] in Hci.
  destruct (Hp 2 (0, 2, 0)%R) as (q & Hq & Hw); [cbn; auto|reflexivity|].
  exists g, labels, cells, i, [f 0; f 1; f 2]. split; [exact H|]. split; [exact Hc|]. split; [exact Hci|].
  exists (f 2), q. auto.
Qed.

(* C150: its groups *)
Theorem C150_merged_groups :
  forall (D : Type) (num : Z -> D) (int : D -> Z) (Hint : forall z, int (num z) = z) o tol clean pvmerge items g labels,
  cleans tol clean -> appends pvmerge -> Forall (fun it => wf_mesh (fst it)) items ->
  merge_mesh num int o pvmerge clean items = Ok (g, labels) ->
  exists place, merged_from items place /\ cells_kept items tol place g /\ names_kept items int o place g labels.
Proof.
  intros D num int Hint o tol clean pvmerge items g labels Hc Hm HW H.
  destruct (merge_mesh_spec num int Hint o pvmerge Hm tol clean Hc items HW g labels H) as (place & ? & ? & ? & _). eauto.
Qed.
Print Assumptions C150_merged_groups.

Example C150_example : exists g labels cg names,
  merge_mesh zz zz cx_opt append_blocks my_keep (my_items []) = Ok (g, labels) /\
  In ("CellGroup"%string, cg) (uv_cd g) /\ get_cell_group (Some (map zz cg)) (Some labels) = Ok (Some (inl names)) /\
  In "clay"%string names /\ In "new"%string names.
Proof.
  destruct (my_merged []) as (g & labels & H).
  destruct (C150_merged_groups Z zz zz (fun z => eq_refl) cx_opt 0 my_keep append_blocks (my_items []) g labels)
    as (place & HP & _ & _ & _ & cg & names & Hcg & Hn & _ & _ & HN); auto using append_blocks_appends, my_wf.
  { apply keep_cleans. lra. }
  exists g, labels, cg, names. split; [exact H|]. split; [exact Hcg|]. split; [exact Hn|]. split.
  - destruct (my_place [] place 0 1 HP) as (i & Hi); [lia|]. destruct (HN i 0 1 Hi) as (it & k & Hit & Hk & HB).
    injection Hit as <-. apply nth_error_In in Hk. cbn in HB. inversion HB as [cg' labels' k' E HL Hnot|HD]; subst.
    + injection E as <- <-. destruct HL as (z & Hz & HL). cbn in Hz. injection Hz as <-.
      destruct HL as [[= <- ]|[[= <- ]|[]]]. exact Hk.
    + destruct (HD _ _ "clay"%string eq_refl). exists 1%Z. cbn. auto.
  - destruct (my_place [] place 1 0 HP) as (i & Hi); [lia|]. destruct (HN i 1 0 Hi) as (it & k & Hit & Hk & HB).
    injection Hit as <-. apply nth_error_In in Hk. cbn in HB. inversion HB as [cg' labels' k' E HL Hnot|HD]; subst; [discriminate|].
    exact Hk.
Qed.

(* C151: its cell data *)
Theorem C151_merged_cell_data :
  forall (D : Type) (num : Z -> D) (int : D -> Z) (Hint : forall z, int (num z) = z) o tol clean pvmerge items g labels,
  cleans tol clean -> appends pvmerge -> Forall (fun it => wf_mesh (fst it)) items ->
  merge_mesh num int o pvmerge clean items = Ok (g, labels) ->
  exists place, merged_from items place /\ cells_kept items tol place g /\ arrays_kept items place g.
Proof.
  intros D num int Hint o tol clean pvmerge items g labels Hc Hm HW H.
  destruct (merge_mesh_spec num int Hint o pvmerge Hm tol clean Hc items HW g labels H) as (place & ? & ? & ? & ? & _). eauto.
Qed.
Print Assumptions C151_merged_cell_data.

Example C151_example : exists g labels x i,
  merge_mesh zz zz cx_opt append_blocks my_keep (my_items []) = Ok (g, labels) /\
  In ("kh"%string, x) (uv_cd g) /\ nth_error x i = Some 9%Z /\ ~ In "x"%string (map fst (uv_cd g)).
Proof.
  destruct (my_merged []) as (g & labels & H).
  destruct (C151_merged_cell_data Z zz zz (fun z => eq_refl) cx_opt 0 my_keep append_blocks (my_items []) g labels)
    as (place & HP & _ & HK & HA); auto using append_blocks_appends, my_wf.
  { apply keep_cleans. lra. }
  assert (Hk : In "kh"%string (map fst (uv_cd g))).
  { apply HK. right. intros it [ <- | [ <- | [] ] ]; cbn; auto. }
  apply in_map_iff in Hk as ([k x] & E & Hx). cbn in E. subst k.
  destruct (my_place [] place 1 0 HP) as (i & Hi); [lia|].
  destruct (HA _ _ Hx) as [_ HV]; [discriminate|]. destruct (HV i 1 0 Hi) as (it & v & Hit & Hv & E). injection Hit as <-.
  exists g, labels, x, i. split; [exact H|]. split; [exact Hx|]. split.
  - cbn in Hv. destruct Hv as [[= <- ]|[[=]|[]]]. rewrite E. reflexivity.
  - intros Hin. apply HK in Hin as [Hin|Hin]; [discriminate|]. specialize (Hin (my_first, EmptyString) (or_introl eq_refl)).
    cbn in Hin. destruct Hin as [?|[?|[]]]; discriminate.
Qed.

(* C152: its ghost flags.  Full statement: without the hypothesis that every mesh has flags. *)
Theorem C152_merged_flags_partial :
  forall (D : Type) (num : Z -> D) (int : D -> Z) (Hint : forall z, int (num z) = z) o tol clean pvmerge items g labels,
  cleans tol clean -> appends pvmerge -> Forall (fun it => wf_mesh (fst it)) items ->
  Forall (fun it => flagged (fst it)) items ->
  merge_mesh num int o pvmerge clean items = Ok (g, labels) ->
  exists place, merged_from items place /\ cells_kept items tol place g /\ flags_kept items place g.
Proof.
  intros D num int Hint o tol clean pvmerge items g labels Hc Hm HW HF H.
  destruct (merge_mesh_spec num int Hint o pvmerge Hm tol clean Hc items HW g labels H) as (place & ? & ? & _ & _ & HG & _). eauto.
Qed.
Print Assumptions C152_merged_flags_partial.

(* with a mesh without flags there are none *)
Theorem C152_merged_flags_lost :
  forall (D : Type) (num : Z -> D) (int : D -> Z) (Hint : forall z, int (num z) = z) o tol clean pvmerge items g labels it,
  cleans tol clean -> appends pvmerge -> Forall (fun it => wf_mesh (fst it)) items ->
  In it items -> uv_types (mm_vol (fst it)) <> [] -> uv_ghost (mm_vol (fst it)) = [] ->
  merge_mesh num int o pvmerge clean items = Ok (g, labels) -> uv_ghost g = [].
Proof.
  intros D num int Hint o tol clean pvmerge items g labels it Hc Hm HW Hit Ht Hg H.
  destruct (merge_mesh_spec num int Hint o pvmerge Hm tol clean Hc items HW g labels H) as (place & _ & _ & _ & _ & _ & HL). eauto.
Qed.
Print Assumptions C152_merged_flags_lost.

Theorem C152_merged_flags_refuted :
  exists (items : list (mitem Z)) clean pvmerge g labels,
    cleans 0 clean /\ appends pvmerge /\ Forall (fun it => wf_mesh (fst it)) items /\
    merge_mesh zz zz cx_opt pvmerge clean items = Ok (g, labels) /\
    forall place, merged_from items place -> ~ flags_kept items place g.
Proof.
  destruct (my_merged []) as (g & labels & H).
  exists (my_items []), my_keep, append_blocks, g, labels.
  assert (Hc : @cleans Z 0 my_keep) by (apply keep_cleans; lra).
  split; [exact Hc|]. split; [apply append_blocks_appends|]. split; [apply my_wf|]. split; [exact H|].
  intros place HP HF. destruct (my_place [] place 0 1 HP) as (i & Hi); [lia|].
  destruct (HF i 0 1 Hi) as (it & Hit & E). injection Hit as <-.
  rewrite (C152_merged_flags_lost Z zz zz (fun z => eq_refl) cx_opt 0 my_keep append_blocks (my_items []) g labels
    (my_second [], "new"%string)) in E; auto using append_blocks_appends, my_wf; cbn; auto.
  - destruct i; discriminate.
  - discriminate.
Qed.
Print Assumptions C152_merged_flags_refuted.

Example C152_example : exists g labels i,
  merge_mesh zz zz cx_opt append_blocks my_keep (my_items [0]) = Ok (g, labels) /\ flag_of (uv_ghost g) i = 1.
Proof.
  destruct (my_merged [0]) as (g & labels & H).
  destruct (C152_merged_flags_partial Z zz zz (fun z => eq_refl) cx_opt 0 my_keep append_blocks (my_items [0]) g labels)
    as (place & HP & _ & HF); auto using append_blocks_appends, my_wf.
  { apply keep_cleans. lra. }
  { constructor; [reflexivity|constructor; [reflexivity|constructor]]. }
  destruct (my_place [0] place 0 1 HP) as (i & Hi); [lia|]. destruct (HF i 0 1 Hi) as (it & Hit & E). injection Hit as <-.
  exists g, labels, i. split; [exact H|]. exact E.
Qed.
