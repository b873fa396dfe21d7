From Coq Require Import Ascii.
From Verif Require Import Groups_model Groups_spec GNumber_spec GNumber_proof Groups_proof Groups2_proof Groups3_proof.
Open Scope Z_scope.
Open Scope string_scope.

(* a mesh of three cells labelled a, b, a *)
Definition ex_mesh : gmesh nat := mkG [10; 11; 12]%nat (Some [0; 1; 0]) (Some [("a", 0); ("b", 1)]).
Definition ex_opt : options := mk_options "" [].

Example ex_aligned : aligned ex_mesh. Proof. reflexivity. Qed.
Example ex_numbered : numbered [("x", 0); ("y", 1)].
Proof. split; [repeat constructor; cbn; intuition discriminate|reflexivity]. Qed.

(* C17 *)
Theorem C17_group_numbering :
  forall A t t', numbered t -> history A t t' -> numbered t' /\ extends t t'.
Proof. exact group_history. Qed.
Print Assumptions C17_group_numbering.

Theorem C17_from_empty : forall A t, history A [] t -> numbered t.
Proof. intros A t H. apply (group_history A [] t numbered_nil H). Qed.
Print Assumptions C17_from_empty.

Example C17_example : history nat [("x", 0); ("y", 1)] [("x", 0); ("y", 1); ("a", 2); ("b", 3)].
Proof.
  eapply h_cons; [|apply h_nil].
  apply (gc_mesh nat _ ex_opt ex_mesh GNone "" [2; 3; 2]); reflexivity.
Qed.

(* C18 *)
Theorem C18_every_cell_named :
  forall A o (mesh : gmesh A) t group default arr t', numbered t -> aligned mesh ->
  initialize_group_array o mesh t group default = Ok (arr, t') ->
  length arr = length (gm_cells mesh) /\
  forall c, (c < length arr)%nat -> exists k, named t' arr c k.
Proof. exact @every_cell_named. Qed.
Print Assumptions C18_every_cell_named.

Theorem C18_every_cell_named_size :
  forall o size t default arr t', numbered t ->
  initialize_group_array_size o size t default = (arr, t') ->
  length arr = size /\ forall c, (c < size)%nat -> named t' arr c (the_default o default).
Proof. intros. destruct (groups_extend_size _ _ _ _ _ _ H H0) as (_ & _ & ? & ?); auto. Qed.
Print Assumptions C18_every_cell_named_size.

Example C18_example :
  initialize_group_array (mk_options "" ["b"]) ex_mesh [] (GDict [("g", SelArr (MInt [-1]))]) "" =
  Ok ([0; 2; 1], [("a", 0); ("g", 1); ("default", 2)]).
Proof. reflexivity. Qed.

(* C19 *)
Theorem C19_base_groups_kept :
  forall A o (mesh : gmesh A) t default, numbered t -> aligned mesh ->
  exists arr t', initialize_group_array o mesh t GNone default = Ok (arr, t') /\
  length arr = length (gm_cells mesh) /\
  forall c, (c < length (gm_cells mesh))%nat -> exists k, named t' arr c k /\
    base_name (labelled mesh) (ignore_groups o) (the_default o default) c k.
Proof. exact @base_groups_kept. Qed.
Print Assumptions C19_base_groups_kept.

Theorem C19_string_group_overrides :
  forall A o (mesh : gmesh A) t s default, numbered t -> aligned mesh -> s <> "" -> plain s ->
  exists arr t', initialize_group_array o mesh t (GStr s) default = Ok (arr, t') /\
  length arr = length (gm_cells mesh) /\
  forall c, (c < length (gm_cells mesh))%nat -> named t' arr c s.
Proof. exact @string_group_overrides. Qed.
Print Assumptions C19_string_group_overrides.

Example C19_example :
  initialize_group_array (mk_options "rock" ["b"]) ex_mesh [("x", 0)] GNone "" =
  Ok ([1; 2; 1], [("x", 0); ("a", 1); ("rock", 2)]) /\
  initialize_group_array ex_opt ex_mesh [("x", 0)] (GStr "g") "" =
  Ok ([3; 3; 3], [("x", 0); ("a", 1); ("b", 2); ("g", 3)]).
Proof. split; reflexivity. Qed.

(* C20 *)
Theorem C20_last_selector_wins :
  forall A o (mesh : gmesh A) t d default arr t', numbered t -> aligned mesh ->
  (forall e, In e d -> (exists m, snd e = SelArr m) \/
                       (exists f b, snd e = SelCall f /\ f mesh = MBool b)) ->
  initialize_group_array o mesh t (GDict d) default = Ok (arr, t') ->
  forall c, (c < length (gm_cells mesh))%nat ->
  exists k, named t' arr c k /\
    ((exists e, last_such (fun e => entry_selects mesh e c) d e /\ key_name (fst e) k) \/
     (Forall (fun e => ~ entry_selects mesh e c) d /\
      base_name (labelled mesh) (ignore_groups o) (the_default o default) c k)).
Proof.
  intros A o mesh t d default arr t' Hn Ha Hd. apply dict_groups; auto.
  intros e He. destruct (Hd e He) as [(m & ->)|(f & b & -> & Hb)]; eauto.
Qed.
Print Assumptions C20_last_selector_wins.

Theorem C20_arrays_accepted :
  forall A o (mesh : gmesh A) t d default, numbered t -> aligned mesh ->
  (forall e, In e d -> exists m, snd e = SelArr m /\
     match m with
     | MBool b => length b = length (gm_cells mesh)
     | MInt ids => forall i, In i ids -> - Z.of_nat (length (gm_cells mesh)) <= i < Z.of_nat (length (gm_cells mesh))
     end) ->
  exists arr t', initialize_group_array o mesh t (GDict d) default = Ok (arr, t').
Proof. exact @dict_groups_defined. Qed.
Print Assumptions C20_arrays_accepted.

Example C20_example :
  initialize_group_array ex_opt ex_mesh []
    (GDict [("g", SelArr (MInt [0; 1])); ("~h", SelArr (MBool [true; false; true]))]) "" =
  Ok ([2; 3; 0], [("a", 0); ("b", 1); ("g", 2); ("h", 3)]).
Proof. reflexivity. Qed.

(* C21: holds when the table starts empty, nothing is ignored and the base mesh is numbered
   like a generated mesh; missing: any other numbering *)
Theorem C21_string_selectors_partial :
  forall A o (mesh : gmesh A) cg labels d default arr t', aligned mesh ->
  ignore_groups o = [] -> gm_cg mesh = Some cg -> gm_labels mesh = Some labels -> numbered labels ->
  (forall z, In z cg -> exists k, In (k, z) labels) ->
  (forall e, In e d -> match snd e with
                       | SelCall f => plain (fst e) \/ exists b, f mesh = MBool b
                       | _ => True end) ->
  initialize_group_array o mesh [] (GDict d) default = Ok (arr, t') ->
  forall c, (c < length (gm_cells mesh))%nat ->
  exists k, named t' arr c k /\
    ((exists e, last_such (fun e => entry_selects mesh e c) d e /\ key_name (fst e) k) \/
     (Forall (fun e => ~ entry_selects mesh e c) d /\
      base_name (labelled mesh) (ignore_groups o) (the_default o default) c k)).
Proof. exact @string_selectors. Qed.
Print Assumptions C21_string_selectors_partial.

Example C21_example :
  initialize_group_array ex_opt ex_mesh [] (GDict [("g", SelStr "~b"); ("h", SelStrs ["b"])]) "" =
  Ok ([2; 3; 2], [("a", 0); ("b", 1); ("g", 2); ("h", 3)]).
Proof. reflexivity. Qed.

Definition ex_swapped : gmesh nat := mkG [10; 11]%nat (Some [1; 0]) (Some [("a", 1); ("b", 0)]).

(* the cell labelled a is not selected by "a", the cell labelled b is *)
Theorem C21_string_selectors_refuted :
  exists arr t', initialize_group_array ex_opt ex_swapped [] (GDict [("g", SelStr "a")]) "" = Ok (arr, t') /\
    entry_selects ex_swapped ("g", SelStr "a") 0 /\ ~ named t' arr 0 "g" /\
    ~ entry_selects ex_swapped ("g", SelStr "a") 1 /\ named t' arr 1 "g".
Proof.
  eexists _, _. split; [reflexivity|]. cbn -[addresses].
  unfold entry_selects, selects, string_selects, label_of, plain, named. cbn.
  split; [|split; [|split]].
  - split; [|intros ? H; discriminate]. intros _. split; [|intros ? H; discriminate].
    intros _. exists 1. auto.
  - intros (z & [= <-] & H). intuition discriminate.
  - intros [H _]. destruct (H ltac:(discriminate)) as [H1 _].
    destruct (H1 ltac:(discriminate)) as (v & [= <-] & Hv). intuition discriminate.
  - exists 2. auto.
Qed.
Print Assumptions C21_string_selectors_refuted.

(* for any numbering, table and ignored groups: a name stands for its number in the table of the new mesh *)
Theorem C21_numbers_partial :
  forall A o (mesh : gmesh A) t d default arr t', numbered t -> aligned mesh ->
  (forall e, In e d -> match snd e with
                       | SelCall f => plain (fst e) \/ exists b, f mesh = MBool b
                       | _ => True end) ->
  initialize_group_array o mesh t (GDict d) default = Ok (arr, t') ->
  forall c, (c < length (gm_cells mesh))%nat ->
  exists k, named t' arr c k /\
    ((exists e, last_such (fun e => entry_selects_numbers t' mesh e c) d e /\ key_name (fst e) k) \/
     (Forall (fun e => ~ entry_selects_numbers t' mesh e c) d /\
      base_name (labelled mesh) (ignore_groups o) (the_default o default) c k)).
Proof. exact @dict_numbers. Qed.
Print Assumptions C21_numbers_partial.

Example C21_numbers_example :
  initialize_group_array ex_opt ex_swapped [("b", 0)] (GDict [("g", SelStr "b"); ("h", SelStrs ["~g"])]) "" =
  Ok ([3; 3], [("b", 0); ("a", 1); ("g", 2); ("h", 3)]).
Proof. reflexivity. Qed.

(* the other way to fail: a selector that names an ignored group of the mesh is an error *)
Theorem C21_ignored_group_error_refuted :
  initialize_group_array (mk_options "" ["b"]) ex_mesh [] (GDict [("g", SelStr "b")]) "" = Err KeyError.
Proof. reflexivity. Qed.
Print Assumptions C21_ignored_group_error_refuted.

(* C22: missing: keys starting with ~ *)
Theorem C22_callable_indices_partial :
  forall A o (mesh : gmesh A) t d default arr t', numbered t -> aligned mesh ->
  (forall e, In e d -> exists f, snd e = SelCall f /\ (plain (fst e) \/ exists b, f mesh = MBool b)) ->
  initialize_group_array o mesh t (GDict d) default = Ok (arr, t') ->
  forall c, (c < length (gm_cells mesh))%nat ->
  exists k, named t' arr c k /\
    ((exists e, last_such (fun e => entry_selects mesh e c) d e /\ key_name (fst e) k) \/
     (Forall (fun e => ~ entry_selects mesh e c) d /\
      base_name (labelled mesh) (ignore_groups o) (the_default o default) c k)).
Proof.
  intros A o mesh t d default arr t' Hn Ha Hd. apply dict_groups; auto.
  intros e He. destruct (Hd e He) as (f & -> & Hf); auto.
Qed.
Print Assumptions C22_callable_indices_partial.

Definition first_cell (_ : gmesh nat) : npmask := MInt [0].

Example C22_example :
  initialize_group_array ex_opt ex_mesh [] (GDict [("g", SelCall first_cell)]) "" =
  Ok ([2; 1; 0], [("a", 0); ("b", 1); ("g", 2)]).
Proof. reflexivity. Qed.

(* with key ~g cell 1 should be in g *)
Theorem C22_inverted_indices_refuted :
  exists arr t', initialize_group_array ex_opt ex_mesh [] (GDict [("~g", SelCall first_cell)]) "" = Ok (arr, t') /\
    entry_selects ex_mesh ("~g", SelCall first_cell) 1 /\ ~ named t' arr 1 "g".
Proof.
  eexists _, _. split; [reflexivity|]. split.
  - split; cbn.
    + intros H. exfalso. eapply H; reflexivity.
    + intros k _ (i & [<-|[]] & [H|H]); lia.
  - intros (z & Hz & H). cbn in Hz. injection Hz as <-. cbn in H. intuition discriminate.
Qed.
Print Assumptions C22_inverted_indices_refuted.

(* what is done instead: the positions are counted from the other end *)
Theorem C22_mirrored_indices_partial :
  forall A o (mesh : gmesh A) t k f ids default arr t', numbered t -> aligned mesh -> plain k ->
  f mesh = MInt ids ->
  initialize_group_array o mesh t (GDict [(String "~"%char k, SelCall f)]) default = Ok (arr, t') ->
  forall c, (c < length (gm_cells mesh))%nat ->
  exists name, named t' arr c name /\
    (name = k /\ (In (Z.of_nat (length (gm_cells mesh)) - 1 - Z.of_nat c) ids \/ In (- 1 - Z.of_nat c) ids) \/
     ~ In (Z.of_nat (length (gm_cells mesh)) - 1 - Z.of_nat c) ids /\ ~ In (- 1 - Z.of_nat c) ids /\
     base_name (labelled mesh) (ignore_groups o) (the_default o default) c name).
Proof. exact @mirrored. Qed.
Print Assumptions C22_mirrored_indices_partial.

Example C22_mirrored_example :
  initialize_group_array ex_opt ex_mesh [] (GDict [("~g", SelCall first_cell)]) "" =
  Ok ([0; 1; 2], [("a", 0); ("b", 1); ("g", 2)]).
Proof. reflexivity. Qed.

(* C23 *)
Theorem C23_clean_removes_unused :
  forall data d, numbered d ->
  (forall c, (c < length data)%nat -> exists k, named d data c k) ->
  exists data' d', clean_groups (Some data) (Some d) = Ok (Some data', Some d') /\
    length data' = length data /\ numbered d' /\
    (forall c k, named d data c k <-> named d' data' c k) /\
    (forall k, In k (map fst d') <-> exists c, named d data c k) /\
    subseq (map fst d') (map fst d).
Proof. exact clean_groups_spec. Qed.
Print Assumptions C23_clean_removes_unused.

Example C23_example :
  clean_groups (Some [3; 1; 3]) (Some [("a", 0); ("b", 1); ("c", 2); ("d", 3)]) =
  Ok (Some [1; 0; 1], Some [("b", 0); ("d", 1)]).
Proof. reflexivity. Qed.

(* C24: missing: mappings that address one value twice, by number and by label *)
Theorem C24_remap_simultaneous_partial :
  forall h mesh m key ms pref d,
  nth_error h mesh = Some m ->
  (pref = "cell" /\ entry_of key (cm_cell m) = Some (AInt d)) \/
  (pref = "point" /\ entry_of key (cm_point m) = Some (AInt d)) ->
  NoDup (map fst (table_of (entry_of key (cm_user m)))) ->
  unambiguous (table_of (entry_of key (cm_user m))) ms -> known_keys (table_of (entry_of key (cm_user m))) ms ->
  exists x h' m' d', remap_categorical_data h mesh key ms pref false = (Ok (Some x), h') /\
    nth_error h' x = Some m' /\
    image_under (table_of (entry_of key (cm_user m))) ms d d' /\
    (pref = "cell" -> entry_of key (cm_cell m') = Some (AInt d') /\ cm_point m' = cm_point m) /\
    (pref = "point" -> entry_of key (cm_point m') = Some (AInt d') /\ cm_cell m' = cm_cell m) /\
    (forall k, k <> key -> entry_of k (cm_cell m') = entry_of k (cm_cell m) /\
                           entry_of k (cm_point m') = entry_of k (cm_point m) /\
                           entry_of k (cm_user m') = entry_of k (cm_user m)).
Proof. exact remap_result. Qed.
Print Assumptions C24_remap_simultaneous_partial.

Theorem C24_invalid_rejected :
  forall h mesh m key ms pref inplace,
  nth_error h mesh = Some m ->
  (pref <> "cell" /\ pref <> "point") \/
  (pref = "cell" /\ exists n, entry_of key (cm_cell m) = Some (AOther n)) \/
  (pref = "point" /\ exists n, entry_of key (cm_point m) = Some (AOther n)) \/
  ((exists d, pref = "cell" /\ entry_of key (cm_cell m) = Some (AInt d) \/
              pref = "point" /\ entry_of key (cm_point m) = Some (AInt d)) /\
   exists s v, In (KStr s, v) ms /\ forall z, ~ In (s, z) (table_of (entry_of key (cm_user m)))) ->
  fst (remap_categorical_data h mesh key ms pref inplace) = Err ValueError.
Proof. exact remap_rejects. Qed.
Print Assumptions C24_invalid_rejected.

(* a swap *)
Example C24_example :
  remap_data [0; 1; 2] (Some [("a", 0); ("b", 1)]) [(KStr "a", 1); (KInt 1, 0)] =
  Ok ([1; 0; 2], Some [("b", 0); ("a", 1)]).
Proof. reflexivity. Qed.
Example C24_example_hyps :
  unambiguous [("a", 0); ("b", 1)] [(KStr "a", 1); (KInt 1, 0)] /\
  known_keys [("a", 0); ("b", 1)] [(KStr "a", 1); (KInt 1, 0)].
Proof.
  split.
  - constructor; [|repeat constructor]. constructor; [|constructor].
    cbn. intros z [H H2]. subst z. intuition congruence.
  - intros s v [[= <- <-]|[[=]|[]]]. exists 0. left; auto.
Qed.

(* value 5 is not mapped, yet it changes: the label of "a" was rewritten before being looked up *)
Theorem C24_remap_simultaneous_refuted :
  exists lab ms data data' l', remap_data data (Some lab) ms = Ok (data', l') /\
    nth_error data 1 = Some 5 /\ (forall k v, In (k, v) ms -> ~ resolves lab k 5) /\
    nth_error data' 1 = Some 7.
Proof.
  exists [("a", 0)], [(KInt 0, 5); (KStr "a", 7)], [0; 5]. eexists _, _. split; [reflexivity|].
  split; auto. split; auto. intros k v [[= <- <-]|[[= <- <-]|[]]]; cbn; [discriminate|].
  intros [H|[]]. discriminate.
Qed.
Print Assumptions C24_remap_simultaneous_refuted.

(* C25: missing: mappings that leave a value present in the data unmapped *)
Theorem C25_remap_keeps_labels_partial :
  forall data lab ms, NoDup (map fst lab) -> NoDup (map snd lab) -> lab <> [] ->
  unambiguous lab ms -> known_keys lab ms ->
  (forall x, In x data -> exists k v, In (k, v) ms /\ resolves lab k x) ->
  exists data' lab', remap_data data (Some lab) ms = Ok (data', Some lab') /\
    (forall c s, named lab data c s -> named lab' data' c s) /\
    ((forall k1 v k2 x1 x2, In (k1, v) ms -> In (k2, v) ms -> resolves lab k1 x1 -> resolves lab k2 x2 ->
        In x1 data -> In x2 data -> x1 = x2) ->
     forall c s, named lab' data' c s -> named lab data c s).
Proof. exact remap_keeps_labels. Qed.
Print Assumptions C25_remap_keeps_labels_partial.

Example C25_example :
  let lab := [("a", 0); ("b", 1)] in let ms := [(KStr "a", 1); (KInt 1, 0)] in
  NoDup (map fst lab) /\ NoDup (map snd lab) /\ lab <> [] /\
  (forall x, In x [0; 1; 1] -> exists k v, In (k, v) ms /\ resolves lab k x) /\
  remap_data [0; 1; 1] (Some lab) ms = Ok ([1; 0; 0], Some [("b", 0); ("a", 1)]).
Proof.
  cbv zeta. split; [|split]; [| |split; [discriminate|split; [|reflexivity]]].
  - repeat constructor; cbn; intuition congruence.
  - repeat constructor; cbn; intuition congruence.
  - intros x [<-|[<-|[<-|[]]]]; [exists (KStr "a"), 1|exists (KInt 1), 0|exists (KInt 1), 0]; cbn; auto.
Qed.

(* cell 1 labelled b is not mapped and loses its label; get_cell_group then fails *)
Theorem C25_remap_drops_label_refuted :
  exists data lab ms data' lab', remap_data data (Some lab) ms = Ok (data', Some lab') /\
    named lab data 1 "b" /\ (forall k, ~ named lab' data' 1 k) /\
    get_cell_group (Some data') (Some lab') = Err KeyError.
Proof.
  exists [0; 1], [("a", 0); ("b", 1)], [(KInt 0, 2)]. eexists _, _. split; [reflexivity|].
  split; [exists 1; split; cbn; auto|]. split; [|reflexivity].
  intros k (z & Hz & H). cbn in *. injection Hz as <-. destruct H as [H|[]]. discriminate.
Qed.
Print Assumptions C25_remap_drops_label_refuted.

(* C26 *)
Theorem C26_out_of_place_leaves_input :
  forall h mesh key ms pref r h',
  remap_categorical_data h mesh key ms pref false = (r, h') ->
  (forall i m, nth_error h i = Some m -> nth_error h' i = Some m) /\
  (forall x, r = Ok x -> x = Some (length h) /\ length h' = S (length h)).
Proof. exact remap_copy. Qed.
Print Assumptions C26_out_of_place_leaves_input.

Theorem C26_in_place :
  forall h mesh key ms pref r h',
  remap_categorical_data h mesh key ms pref true = (r, h') ->
  length h' = length h /\
  (forall i, i <> mesh -> nth_error h' i = nth_error h i) /\
  (forall x, r = Ok x -> x = None) /\
  (forall e, r = Err e -> h' = h).
Proof. exact remap_inplace. Qed.
Print Assumptions C26_in_place.

Theorem C26_same_result :
  forall h mesh key ms pref r1 h1 r2 h2,
  remap_categorical_data h mesh key ms pref true = (r1, h1) ->
  remap_categorical_data h mesh key ms pref false = (r2, h2) ->
  (forall e, r1 = Err e <-> r2 = Err e) /\
  (forall x, r1 = Ok x -> nth_error h1 mesh = nth_error h2 (length h)).
Proof. exact remap_same. Qed.
Print Assumptions C26_same_result.

Definition ex_cmesh : cmesh := mkC [("G", AInt [0; 1])] [("P", AOther 4)] [("G", [("a", 0); ("b", 1)])].
Example C26_example :
  remap_categorical_data [ex_cmesh] 0 "G" [(KStr "a", 1); (KStr "b", 0)] "cell" false =
  (Ok (Some 1%nat), [ex_cmesh; mkC [("G", AInt [1; 0])] [("P", AOther 4)] [("G", [("b", 0); ("a", 1)])]]) /\
  fst (remap_categorical_data [ex_cmesh] 0 "P" [] "point" false) = Err ValueError.
Proof. split; reflexivity. Qed.

(* C27 *)
Theorem C27_get_cell_group :
  forall data d, NoDup (map snd d) ->
  match get_cell_group (Some data) (Some d) with
  | Ok (Some (inl names)) => length names = length data /\
      forall c k, nth_error names c = Some k <-> named d data c k
  | Err e => e = KeyError /\ exists c z, nth_error data c = Some z /\ forall k, ~ In (k, z) d
  | _ => False
  end.
Proof. exact get_cell_group_spec. Qed.
Print Assumptions C27_get_cell_group.

Theorem C27_missing : forall labels data,
  get_cell_group None labels = Ok None /\ get_cell_group (Some data) None = Ok (Some (inr data)).
Proof. split; reflexivity. Qed.
Print Assumptions C27_missing.

Example C27_example :
  get_cell_group (Some [1; 0; 1]) (Some [("a", 0); ("b", 1)]) = Ok (Some (inl ["b"; "a"; "b"])) /\
  get_cell_group (Some [2]) (Some [("a", 0); ("b", 1)]) = Err KeyError.
Proof. split; reflexivity. Qed.

(* C28 *)
Theorem C28_merge_names :
  forall A o swap (items : list (merge_item A)), items <> [] ->
  Forall (fun it => aligned (fst it)) items ->
  exists merged its' cg labels, merge_generate o swap items = Ok (merged, its') /\
    gm_cg merged = Some cg /\ gm_labels merged = Some labels /\ numbered labels /\
    length cg = length (gm_cells merged) /\
    (forall k, In k (map fst labels) <-> exists c, named labels cg c k) /\
    let order := if swap then rev items else items in
    gm_cells merged = flat_map (fun it => gm_cells (fst it)) order /\
    forall before mesh d after c, order = (before ++ (mesh, d) :: after)%list ->
      (c < length (gm_cells mesh))%nat ->
      exists k, named labels cg (length (flat_map (fun it => gm_cells (fst it)) before) + c) k /\
        base_name (labelled mesh) (ignore_groups o) (the_default o d) c k.
Proof. exact @merge_names. Qed.
Print Assumptions C28_merge_names.

Definition ex_items : list (merge_item nat) :=
  [(mkG [1]%nat (Some [5]) (Some [("b", 5)]), ""); (mkG [2; 3]%nat None None, "new"); (ex_mesh, "z")].
Example C28_example :
  match merge_generate (mk_options "" ["a"]) false ex_items with
  | Ok (m, _) => m = mkG [1; 2; 3; 10; 11; 12]%nat (Some [0; 1; 1; 2; 0; 2]) (Some [("b", 0); ("new", 1); ("z", 2)])
  | Err _ => False end.
Proof. reflexivity. Qed.

(* C29: items without labels of their own; missing: labelled items *)
Theorem C29_merge_repeatable_partial :
  forall A o swap (items : list (merge_item A)) m its,
  Forall (fun it => gm_labels (fst it) = None) items ->
  merge_generate o swap items = Ok (m, its) ->
  merge_generate o swap its = Ok (m, its).
Proof. exact @merge_repeat. Qed.
Print Assumptions C29_merge_repeatable_partial.

Example C29_example : exists m its,
  merge_generate ex_opt false [(mkG [1]%nat (Some [5]) None, ""); (mkG [2; 3]%nat None None, "new")] = Ok (m, its) /\
  gm_cg m = Some [0; 1; 1].
Proof. eexists _, _. split; reflexivity. Qed.

(* the second call gives other groups *)
Theorem C29_merge_repeatable_refuted :
  exists m1 m2 its1 its2,
    merge_generate ex_opt false ex_items = Ok (m1, its1) /\
    merge_generate ex_opt false its1 = Ok (m2, its2) /\
    gm_labels m1 = Some [("b", 0); ("new", 1); ("a", 2)] /\ gm_cg m1 = Some [0; 1; 1; 2; 0; 2] /\
    gm_labels m2 = Some [("default", 0); ("new", 1); ("a", 2); ("z", 3)].
Proof. eexists _, _, _, _. repeat split; reflexivity. Qed.
Print Assumptions C29_merge_repeatable_refuted.
