From Coq Require Import Reals Lra Lia Sorted.
From Verif Require Import Prelude RealAux Perc_model Perc_proof Grid Surface_model Surface_spec Surface_proof Volume_model
  Groups_model Lines_model Lines_spec Lines1_proof Voronoi_model Objects_model Objects_spec Objects1_proof Objects3_proof Objects5_proof
  Seeds_model Seeds_spec Seeds1_proof Seeds3_proof Seeds4_proof.
Open Scope R_scope.
Local Notation at_ l k := (nth k l z2).

(* 300-305 *)
Lemma lerp_across axis w t (p n : vec) :
  lerp t (sub3 (insert_axis axis p) (scale (/ 2 * w) (insert_axis axis n)))
         (add3 (insert_axis axis p) (scale (/ 2 * w) (insert_axis axis n))) = embed axis (across w p n t).
Proof.
  rewrite !insert_embed. destruct p as [u v], n as [x y]. unfold across, embed, lerp, lerp1, sub3, add3, scale. cbn [fst snd].
  destruct axis as [|[|a]]; cbn [fst snd insert_axis]; repeat match goal with |- (_, _) = (_, _) => apply f_equal2 end; field.
Qed.

Lemma map2_map_self {A B C} (f : A -> B -> C) (g : A -> B) l : map2 f l (map g l) = map (fun x => f x (g x)) l.
Proof. induction l as [|x l IH]; cbn; congruence. Qed.

Lemma combine_nth_error {A B} (l : list A) (m : list B) k x y : nth_error l k = Some x -> nth_error m k = Some y ->
  nth_error (combine l m) k = Some (x, y).
Proof.
  revert m k; induction l as [|a l IH]; intros [|b m] [|k] H1 H2; cbn in *; try discriminate; [congruence|]. now apply IH.
Qed.

(* cells of the grid *)
Lemma flat_map_ext' {A B} (f g : A -> list B) l : (forall x, In x l -> f x = g x) -> flat_map f l = flat_map g l.
Proof. induction l as [|x l IH]; cbn; intros H; [reflexivity|]. rewrite (H x) by auto. f_equal. apply IH. auto. Qed.

Lemma map_flat_map {A B C} (f : B -> C) (g : A -> list B) l : map f (flat_map g l) = flat_map (fun x => map f (g x)) l.
Proof. induction l as [|x l IH]; cbn; [reflexivity|]. rewrite map_app. congruence. Qed.

Lemma grid_cells_strip axis w E N P pts : length N = length E -> (2 <= length E)%nat -> (2 <= length P)%nat ->
  (forall i j, (i < length E)%nat -> (j < length P)%nat ->
     nth_error pts (i + length E * j) = Some (strip_node axis w E N P i j)) ->
  grid_cells (length E) (length P) pts = map (strip_cell axis w E N P) (cell_indices (length E - 1) (length P - 1)).
Proof.
  intros LN LE LP H. unfold grid_cells, cell_indices. rewrite map_flat_map. apply flat_map_ext'.
  intros j Hj. apply in_seq in Hj. rewrite map_map. apply map_ext_in. intros i Hi. apply in_seq in Hi.
  unfold strip_cell. cbn [map].
  assert (G : forall a b, (a < length E)%nat -> (b < length P)%nat ->
    nth (a + length E * b) pts origin = strip_node axis w E N P a b) by (intros; apply nth_of; auto).
  rewrite (G i j), (G (Datatypes.S i) j), (G (Datatypes.S i) (Datatypes.S j)), (G i (Datatypes.S j)) by lia. reflexivity.
Qed.

Lemma mask_get_map {A B} (f : A -> B) (g : A -> bool) l : mask_get (map g l) (map f l) = map f (filter g l).
Proof. induction l as [|x l IH]; cbn; [reflexivity|]. destruct (g x); cbn; congruence. Qed.

Lemma mask_core n m cs ce : constraint_mask n m cs ce = map (fun ij => negb (core n m cs ce ij)) (cell_indices n m).
Proof.
  unfold constraint_mask, cell_indices. rewrite map_flat_map. apply flat_map_ext'. intros j Hj. rewrite map_map. apply map_ext.
  intros i. unfold core. cbn [fst snd].
  assert (E1 : (i <? n - ce)%nat = (i + ce <? n)%nat).
  { destruct (Nat.ltb_spec i (n - ce)), (Nat.ltb_spec (i + ce) n); auto; lia. }
  assert (E2 : (j <? m - 1)%nat = (j + 1 <? m)%nat).
  { destruct (Nat.ltb_spec j (m - 1)), (Nat.ltb_spec (j + 1) m); auto; lia. }
  rewrite E1, E2. destruct j; reflexivity.
Qed.

Section polyline.
Variable areas : shape3 -> list pt -> list R.

Lemma items_ok axis P width pref padding cs ce priority group points :
  (2 <= length points)%nat -> (2 <= length P)%nat -> StronglySorted Rle P ->
  exists it1 it2, polyline_items areas axis P width pref padding cs ce priority group points = Ok [it1; it2] /\
    draws axis width pref padding cs ce P points priority group it1 it2.
Proof.
  intros L LP S. unfold polyline_items.
  rewrite (map_ext _ _ (drop_project axis)).
  assert (Ep : match padding with Some p => p | None => / 2 * width end = padding_of width padding).
  { destruct padding; cbn; lra. }
  rewrite Ep.
  destruct (axis_points_ok pref (padding_of width padding) (map (project axis) points)) as (Q & -> & HQ & LQ); [now rewrite map_length|].
  cbn [bind]. destruct (strip_ok cs ce Q LQ) as (E & N & -> & LN & HE & HN). cbn [bind].
  rewrite !map2_map_self.
  assert (LE : (2 <= length E)%nat) by (destruct HE as (HE & _); lia).
  assert (LC : length (combine E N) = length E) by (rewrite combine_length; lia).
  set (fa := fun x : pt2 * pt2 => sub3 _ _). set (fb := fun x : pt2 * pt2 => add3 _ _).
  destruct (strip_surface areas axis (map fa (combine E N)) (map fb (combine E N)) P) as (g & Hg & Hd & Hlen & Hat);
    [now rewrite !map_length|rewrite map_length; lia|exact LP|exact S|].
  unfold plane_of in Hg. rewrite Hg. cbn [bind]. rewrite Hd, map_length, LC.
  assert (G : grid_cells (length E) (length P) (sg_pts g) = map (strip_cell axis width E N P) (cell_indices (length E - 1) (length P - 1))).
  { apply grid_cells_strip; auto. intros i j Hi Hj.
    assert (Hc : nth_error (combine E N) i = Some (at_ E i, at_ N i)).
    { apply combine_nth_error; apply nth_error_nth'; lia. }
    rewrite map_length, LC in Hat. rewrite (Hat i j (fa (at_ E i, at_ N i)) (fb (at_ E i, at_ N i)) (nth j P 0)).
    - unfold fa, fb. cbn [fst snd]. rewrite lerp_across. reflexivity.
    - rewrite nth_error_map, Hc. reflexivity.
    - rewrite nth_error_map, Hc. reflexivity.
    - apply nth_error_nth'. exact Hj. }
  rewrite G, mask_core, map_map, !mask_get_map.
  do 2 eexists. split; [reflexivity|]. exists Q, E, N. unfold cells_of. cbn.
  do 4 (split; [assumption|]). split.
  { f_equal. apply filter_ext. intros ij. now rewrite negb_involutive. }
  repeat split; reflexivity.
Qed.

Lemma items_bad axis P width pref padding cs ce priority group points : (length points < 2)%nat ->
  polyline_items areas axis P width pref padding cs ce priority group points = Err IndexError.
Proof.
  intros L. unfold polyline_items.
  pose proof (axis_points_bad pref (match padding with Some p => p | None => / 2 * width end) cs ce
    (map (drop_axis axis) points) ltac:(rewrite map_length; lia)) as H.
  destruct (axis_points _ _ _) as [ps|e]; cbn [bind] in *; [|congruence]. rewrite H. reflexivity.
Qed.

Lemma loop_ok axis P width pref padding cs ce priority group : (2 <= length P)%nat -> StronglySorted Rle P ->
  forall lines s, Forall (fun l => (2 <= length l)%nat) lines ->
  exists its, polyline_loop (polyline_items areas axis P width pref padding cs ce priority group) s lines =
      (mkSeeds (s_items s ++ its) (s_fuse s), Ok tt) /\
    drawn_all (fun l => draws axis width pref padding cs ce P l priority group) lines its.
Proof.
  intros LP S. induction lines as [|l ls IH]; intros s H; cbn [polyline_loop].
  - exists []. rewrite app_nil_r. destruct s. split; [reflexivity|constructor].
  - inversion H; subst.
    destruct (items_ok axis P width pref padding cs ce priority group l) as (a & b & -> & D); auto. cbn [after].
    destruct (IH (mkSeeds (s_items s ++ [a; b]) (s_fuse s))) as (its & -> & F); [assumption|].
    exists (a :: b :: its). cbn [s_items s_fuse]. rewrite <- app_assoc. split; [reflexivity|]. now constructor.
Qed.

Lemma picks_fun {A} (v : list A) ids a b : picks v ids a -> picks v ids b -> a = b.
Proof.
  unfold picks. revert a b; induction ids as [|i ids IH]; intros a b Ha Hb; inversion Ha; inversion Hb; subst; [reflexivity|].
  f_equal; [congruence|auto].
Qed.

Lemma runs_fun {A} (v : list A) cells a b : runs v cells a -> runs v cells b -> a = b.
Proof.
  unfold runs. revert a b; induction cells as [|i ids IH]; intros a b Ha Hb; inversion Ha; inversion Hb; subst; [reflexivity|].
  f_equal; [eapply picks_fun; eauto|auto].
Qed.

Lemma split_true_runs {P D} (m : lmesh P D) ls : split_lines true m = Ok ls ->
  runs (l_pts m) (l_cells m) (map l_pts ls).
Proof.
  intros H. apply split_lines_faithful in H as [Hl H]. apply Forall2_from_nth; [now rewrite map_length|].
  intros i ids y Hi Hy. rewrite nth_error_map in Hy. destruct (nth_error ls i) as [l|] eqn:E; [|discriminate].
  injection Hy as <-. exact (proj1 (H i ids l Hi E)).
Qed.

Lemma picks_all {A} (l : list A) : picks l (seq 0 (length l)) l.
Proof.
  apply Forall2_from_nth; [now rewrite seq_length|]. intros i k y Hk Hy.
  assert (i < length l)%nat by (apply nth_error_Some; congruence).
  rewrite nth_error_seq in Hk. destruct (Nat.ltb_spec i (length l)); [|lia]. injection Hk as <-. exact Hy.
Qed.

Lemma arg_lines {D} (arg : list pt + lmesh pt D) ls : polylines arg ls ->
  exists m out, polyline_mesh arg = Ok m /\ split_lines true m = Ok out /\ map l_pts out = ls.
Proof.
  intros [pts H|m ls' Hw Hr]; cbn [polyline_mesh].
  - rewrite (multiple_lines_two _ H). cbn [bind]. set (m := mkL pts [seq 0 (length pts)] [] []).
    destruct (split_lines_defined true m) as (out & Ho).
    { unfold wf_lines, m. cbn. split; [|split; intros ? ? []]. intros ids [<-|[]] k Hk. apply in_seq in Hk. lia. }
    exists m, out. split; [reflexivity|]. split; [exact Ho|]. eapply runs_fun; [apply split_true_runs, Ho|].
    constructor; [apply picks_all|constructor].
  - destruct (split_lines_defined true m Hw) as (out & Ho). exists m, out. split; [reflexivity|]. split; [exact Ho|].
    eapply runs_fun; [apply split_true_runs, Ho|exact Hr].
Qed.

Lemma polyline_ok {D} axis s (arg : list pt + lmesh pt D) ls width pref padding cs ce res p priority group :
  polylines arg ls -> Forall (fun l => (2 <= length l)%nat) ls -> resolution_to_perc res None = Ok p -> (2 <= length p)%nat ->
  exists P its, widened p P /\
    add_polyline areas axis s arg width pref padding cs ce res priority group = (mkSeeds (s_items s ++ its) (s_fuse s), Ok tt) /\
    drawn_all (fun l => draws axis width pref padding cs ce P l (match priority with Some p => p | None => 0%Z end) group) ls its.
Proof.
  intros Ha Hl Hr Lp. destruct (arg_lines arg ls Ha) as (m & out & E1 & E2 & E3).
  destruct (extended_ok p Lp) as (P & E4 & W & S). pose proof (S (perc_sorted _ _ _ Hr)) as S'.
  exists P. unfold add_polyline. rewrite E1. cbn [after]. rewrite Hr. cbn [after]. rewrite E4. cbn [after].
  rewrite E2. cbn [after]. rewrite E3.
  destruct (loop_ok axis P width pref padding cs ce (match priority with Some p => p | None => 0%Z end) group) with (lines := ls) (s := s)
    as (its & -> & F); auto.
  { destruct W as (W & _). lia. }
  exists its. auto.
Qed.
End polyline.
