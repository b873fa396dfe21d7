From Coq Require Import Permutation.
From Verif Require Import RealAux Volume_model Volume_spec Groups_model Groups_spec Objects_spec Final_spec Unstr_spec
  MMerge_model MMerge_spec MMerge_proof MMerge_props Paint_spec Paint_proof Well_proof Unstr4_proof Stack6_proof.
From Coq Require Import Lra.
Open Scope R_scope.

(* C155: a mesh merged out of polygons shows the same polygons with the same names *)
Theorem C155_polygons :
  forall (D : Type) (num : Z -> D) (int : D -> Z) (Hint : forall z, int (num z) = z) o tol clean pvmerge items shown g labels,
  cleans tol clean -> appends pvmerge -> Forall (fun it => wf_mesh (fst it)) items ->
  Forall2 (shows int o) items shown ->
  merge_mesh num int o pvmerge clean items = Ok (g, labels) ->
  exists l moved, drawn g (map snd l) /\ names_of int g labels (map fst l) /\
    Permutation (concat shown) moved /\ Forall2 (same_within tol) moved l.
Proof.
  intros D num int Hint o tol clean pvmerge items shown g labels Hc Hm HW HS H.
  exact (proj1 (merged_shown num int Hint o pvmerge Hm tol clean Hc items shown g labels HW HS H)).
Qed.
Print Assumptions C155_polygons.

(* when the cleaning moves no point, the areas covered by the groups add up *)
Theorem C155_areas :
  forall (D : Type) (num : Z -> D) (int : D -> Z) (Hint : forall z, int (num z) = z) o clean pvmerge items shown g labels,
  cleans 0 clean -> appends pvmerge -> Forall (fun it => wf_mesh (fst it)) items ->
  Forall2 (shows int o) items shown ->
  merge_mesh num int o pvmerge clean items = Ok (g, labels) ->
  exists l, drawn g (map snd l) /\ names_of int g labels (map fst l) /\
    total_area l = sum_list (map total_area shown) /\
    forall k, named_area k l = sum_list (map (named_area k) shown).
Proof.
  intros D num int Hint o clean pvmerge items shown g labels Hc Hm HW HS H.
  destruct (C155_polygons D num int Hint o 0 clean pvmerge items shown g labels Hc Hm HW HS H) as (l & mv & Hd & Hn & HP & HF).
  apply same_within_0 in HF. subst mv. exists l. split; [exact Hd|]. split; [exact Hn|]. split.
  - rewrite <- (total_area_perm _ _ HP). clear. induction shown as [|s t IH]; [reflexivity|]. cbn [concat map]. rewrite total_area_app, IH. reflexivity.
  - intros k. rewrite <- (named_area_perm k _ _ HP). clear. induction shown as [|s t IH]; [reflexivity|]. cbn [concat map]. rewrite named_area_app, IH. reflexivity.
Qed.
Print Assumptions C155_areas.

Definition my_shown : list (list (string * list pt)) :=
  [[("sand", [(0, 0, 0); (1, 0, 0); (1, 1, 0); (0, 1, 0)]); ("clay", [(1, 0, 0); (2, 0, 0); (1, 1, 0)])];
   [("new", [(0, 1, 0); (1, 1, 0); (0, 2, 0)])]]%string.
Lemma my_shows : Forall2 (shows zz cx_opt) (my_items []) my_shown.
Proof.
  apply Forall2_cons; [|apply Forall2_cons; [|apply Forall2_nil]].
  - apply (shows_named zz cx_opt (mm_vol my_first)).
    + reflexivity.
    + repeat split; cbn; repeat constructor; cbn; try lia; intuition discriminate.
    + eexists. split; [reflexivity|]. repeat (apply Forall2_cons; [do 2 eexists; split; [reflexivity|]; split; [unfold polygon_type; cbn; lia|]; repeat (apply Forall2_cons; [reflexivity|]); apply Forall2_nil|]). apply Forall2_nil.
    + eexists. split; reflexivity.
  - apply (shows_part zz cx_opt (mm_vol (my_second [])) "new"%string [_]); [discriminate|].
    eexists. split; [reflexivity|]. repeat (apply Forall2_cons; [do 2 eexists; split; [reflexivity|]; split; [unfold polygon_type; cbn; lia|]; repeat (apply Forall2_cons; [reflexivity|]); apply Forall2_nil|]). apply Forall2_nil.
Qed.
Example C155_example : exists g labels l,
  merge_mesh zz zz cx_opt append_blocks my_keep (my_items []) = Ok (g, labels) /\
  drawn g (map snd l) /\ names_of zz g labels (map fst l) /\
  total_area l = 2 /\ named_area "sand" l = 1 /\ named_area "new" l = / 2.
Proof.
  destruct (my_merged []) as (g & labels & H).
  destruct (C155_areas Z zz zz (fun z => eq_refl) cx_opt my_keep append_blocks (my_items []) my_shown g labels) as (l & Hd & Hn & Ht & Hk);
    auto using append_blocks_appends, my_wf, my_shows.
  { apply keep_cleans. lra. }
  exists g, labels, l. split; [exact H|]. split; [exact Hd|]. split; [exact Hn|]. rewrite Ht, !Hk. clear.
  assert (A1 : polygon_area [(0, 0, 0); (1, 0, 0); (1, 1, 0); (0, 1, 0)] = 1) by (unfold polygon_area, fan_sum, twice_area3; rewrite Rabs_pos_eq; lra).
  assert (A2 : polygon_area [(1, 0, 0); (2, 0, 0); (1, 1, 0)] = / 2) by (unfold polygon_area, fan_sum, twice_area3; rewrite Rabs_pos_eq; lra).
  assert (A3 : polygon_area [(0, 1, 0); (1, 1, 0); (0, 2, 0)] = / 2) by (unfold polygon_area, fan_sum, twice_area3; rewrite Rabs_pos_eq; lra).
  unfold my_shown, named_area, total_area, sum_list. cbn -[polygon_area]. rewrite A1, A2, A3. lra.
Qed.
