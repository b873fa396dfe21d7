From Coq Require Import Reals Lra Permutation.
From Verif Require Import RealAux Volume_model Volume_spec Surface_spec Objects_spec Lines_spec SMerge_model Groups_spec MMerge_model MMerge_spec Unstr_model Unstr_spec Paint_spec Paint_proof
  Encl_spec Well_model Well_spec Well3_model Well3_spec Bulk_spec Bulk_proof.
From Verif Require Lines5_proof Stack3_proof.
Open Scope R_scope.

Lemma half_abs x : Rabs x / 2 = Rabs (x / 2).
Proof. unfold Rdiv. rewrite Rabs_mult, (Rabs_pos_eq (/ 2)) by lra. reflexivity. Qed.

(* a prism over a polygon *)
Lemma prism_volume pts cell ps z z' : prism 0 pts cell ps z z' -> z <= z' ->
  exists V, has_volume pts cell V /\ Rabs V = polygon_area ps * (z' - z).
Proof.
  intros (ty & ids & -> & HT & HF) Hz.
  assert (HA : forall i p r, nth_error pts i = Some r /\ within 0 p r -> at_pts pts i = p).
  { intros i p r [H1 H2]. apply within0 in H2. subst r. unfold at_pts. now rewrite (nth_error_nth _ _ _ H1). }
  assert (HF' : map (at_pts pts) ids = map (at_height z) ps ++ map (at_height z') ps).
  { clear HT. revert HF. generalize (map (at_height z) ps ++ map (at_height z') ps). clear ps. intros ps. induction 1 as [|i p ids ps (r & Hr) _ IH]; [reflexivity|].
    cbn [map]. rewrite IH. f_equal. eauto. }
  clear HF HA. assert (HZ : Rabs (z' - z) = z' - z) by (apply Rabs_pos_eq; lra). destruct HT as [[L ->]|[L ->]].
  - destruct ps as [|a [|b [|c [|]]]]; try discriminate. cbn [map app] in HF'.
    do 6 (destruct ids as [|? ids]; [discriminate|]). destruct ids; [|discriminate]. cbn [map] in HF'. injection HF' as E0 E1 E2 E3 E4 E5.
    eexists. split; [eexists; split; [constructor|]; apply (wedge_volume _ (0, 0, 1) _ _ _ _ _ _ (z' - z) (z' - z) (z' - z))|].
    + rewrite E3, E0. destruct a as [[? ?] ?]. cbn. f_equal; [f_equal|]; ring.
    + rewrite E4, E1. destruct b as [[? ?] ?]. cbn. f_equal; [f_equal|]; ring.
    + rewrite E5, E2. destruct c as [[? ?] ?]. cbn. f_equal; [f_equal|]; ring.
    + unfold polygon_area, turn. cbn [fan_sum]. rewrite E0, E1, E2. rewrite <- HZ at 4. rewrite half_abs, <- Rabs_mult. f_equal. destruct a as [[? ?] ?], b as [[? ?] ?], c as [[? ?] ?]. cbn. field.
  - destruct ps as [|a [|b [|c [|d [|]]]]]; try discriminate. cbn [map app] in HF'.
    do 8 (destruct ids as [|? ids]; [discriminate|]). destruct ids; [|discriminate]. cbn [map] in HF'. injection HF' as E0 E1 E2 E3 E4 E5 E6 E7.
    eexists. split; [eexists; split; [constructor|]; apply (hexahedron_volume _ (0, 0, 1) _ _ _ _ _ _ _ _ (z' - z) (z' - z) (z' - z) (z' - z))|].
    + rewrite E4, E0. destruct a as [[? ?] ?]. cbn. f_equal; [f_equal|]; ring.
    + rewrite E5, E1. destruct b as [[? ?] ?]. cbn. f_equal; [f_equal|]; ring.
    + rewrite E6, E2. destruct c as [[? ?] ?]. cbn. f_equal; [f_equal|]; ring.
    + rewrite E7, E3. destruct d as [[? ?] ?]. cbn. f_equal; [f_equal|]; ring.
    + unfold polygon_area, turn. cbn [fan_sum]. rewrite E0, E1, E2, E3. rewrite <- HZ at 7. rewrite half_abs, <- Rabs_mult. f_equal. destruct a as [[? ?] ?], b as [[? ?] ?], c as [[? ?] ?], d as [[? ?] ?]. cbn. field.
Qed.

(* the polygons and names of a mesh *)
Lemma drawn_fun {D} (g : uvol D) ps ps' : drawn g ps -> drawn g ps' -> ps = ps'.
Proof.
  intros (cells & Hc & HF) (cells' & Hc' & HF'). unfold cells_of in *. rewrite Hc in Hc'. injection Hc' as <-. clear Hc.
  revert ps' HF'. induction HF as [|c p cells ps (ty & ids & -> & _ & H) _ IH]; intros ps' HF'; inversion HF' as [|? p' ? ? (ty' & ids' & E & _ & H') HF'']; subst; [reflexivity|].
  injection E as <- <-. f_equal; [|now apply IH]. clear - H H'. revert p' H'.
  induction H as [|i q ids p Hq _ IH]; intros p' H'; inversion H'; subst; [reflexivity|]. f_equal; [congruence|now apply IH].
Qed.
Lemma names_fun {D} (int : D -> Z) (g : uvol D) labels ns ns' : names_of int g labels ns -> names_of int g labels ns' -> ns = ns'.
Proof. intros (cg & H1 & H2) (cg' & H1' & H2'). rewrite H1 in H1'. injection H1' as <-. congruence. Qed.
Lemma split_eq {A B} (l l' : list (A * B)) : map fst l = map fst l' -> map snd l = map snd l' -> l = l'.
Proof.
  revert l'; induction l as [|[a b] l IH]; intros [|[a' b'] l'] H1 H2; try discriminate; [reflexivity|].
  cbn in *. injection H1 as -> H1. injection H2 as -> H2. f_equal. now apply IH.
Qed.

Lemma sum_filter (k : string) (l : list (string * R)) : named_volume k l = sum_list (map (fun x => if String.eqb (fst x) k then snd x else 0) l).
Proof.
  unfold named_volume. induction l as [|[n v] l IH]; [reflexivity|]. cbn [filter map fst snd]. unfold sum_list in *. cbn [fold_right].
  rewrite <- IH. destruct (String.eqb n k); cbn [map fold_right snd]; ring.
Qed.
Lemma area_filter (k : string) l : named_area k l = sum_list (map (fun x => if String.eqb (fst x) k then polygon_area (snd x) else 0) l).
Proof.
  unfold named_area, total_area. induction l as [|[n v] l IH]; [reflexivity|]. cbn [filter map fst snd]. unfold sum_list in *. cbn [fold_right].
  rewrite <- IH. destruct (String.eqb n k); cbn [map fold_right snd]; ring.
Qed.

Section Stacks.
Context (l : list (string * list (R * R * R))) (layers : string -> nat) (H : nat -> R) (place : list (nat * nat)).
Context (HN : NoDup place) (HP : forall c h, In (c, h) place <-> exists k ps, nth_error l c = Some (k, ps) /\ (h < layers k)%nat).

Definition name_at (c : nat) : string := fst (nth c l (EmptyString, [])).
Definition all_places : list (nat * nat) := flat_map (fun c => map (pair c) (seq 0 (layers (name_at c)))) (seq 0 (length l)).
Lemma in_all c h : In (c, h) all_places <-> (c < length l /\ h < layers (name_at c))%nat.
Proof.
  unfold all_places. rewrite in_flat_map. split.
  - intros (c' & Hc & Hin). apply in_map_iff in Hin as (h' & [= <- <-] & Hh). apply in_seq in Hc, Hh. lia.
  - intros [Hc Hh]. exists c. split; [apply in_seq; lia|]. apply in_map. apply in_seq. lia.
Qed.
Lemma all_nodup : NoDup all_places.
Proof.
  unfold all_places. generalize (seq_NoDup (length l) 0). induction (seq 0 (length l)) as [|c cs IH]; intros Hn; [constructor|].
  inversion Hn; subst. cbn [flat_map]. apply Lines5_proof.NoDup_app.
  - apply FinFun.Injective_map_NoDup; [intros x y; now intros [= ->]|apply seq_NoDup].
  - now apply IH.
  - intros [c' h'] H1' H2'. apply in_map_iff in H1' as (x & [= <- <-] & _). apply in_flat_map in H2' as (c' & Hc & Hin).
    apply in_map_iff in Hin as (x' & [= <- <-] & _). contradiction.
Qed.
Lemma place_all : Permutation place all_places.
Proof.
  apply NoDup_Permutation; [exact HN|apply all_nodup|]. intros [c h]. rewrite HP, in_all. unfold name_at. split.
  - intros (k & ps & E & Hh). rewrite (nth_error_nth _ _ _ E). split; [apply nth_error_Some; congruence|exact Hh].
  - intros [Hc Hh]. destruct (nth_error l c) as [[k ps]|] eqn:E; [|apply nth_error_None in E; lia].
    rewrite (nth_error_nth _ _ _ E) in Hh. eauto.
Qed.

Lemma sum_stack a n : sum_list (map (fun h => a * (H (S h) - H h)) (seq 0 n)) = a * (H n - H 0%nat).
Proof.
  induction n as [|n IH]; [unfold sum_list; cbn; ring|]. rewrite seq_S, map_app, sum_list_app, IH. unfold sum_list. cbn. ring.
Qed.

Lemma stacks_volume k : sum_list (map (fun ch => if String.eqb (name_at (fst ch)) k then polygon_area (snd (nth (fst ch) l (EmptyString, []))) * (H (S (snd ch)) - H (snd ch)) else 0) place) =
  named_area k l * (H (layers k) - H 0%nat).
Proof.
  rewrite (sum_list_perm _ _ (Permutation_map _ place_all)). rewrite area_filter.
  assert (E : forall c, sum_list (map (fun ch => if String.eqb (name_at (fst ch)) k then polygon_area (snd (nth (fst ch) l (EmptyString, []))) * (H (S (snd ch)) - H (snd ch)) else 0)
     (map (pair c) (seq 0 (layers (name_at c))))) = (if String.eqb (name_at c) k then polygon_area (snd (nth c l (EmptyString, []))) else 0) * (H (layers k) - H 0%nat)).
  { intros c. rewrite map_map. cbn [fst snd]. destruct (String.eqb_spec (name_at c) k) as [<-|Hne].
    - apply sum_stack.
    - rewrite Rmult_0_l. generalize (seq 0 (layers (name_at c))). induction l0 as [|x l0 IH]; [reflexivity|]. unfold sum_list in *. cbn [map fold_right]. rewrite IH. ring. }
  assert (E2 : forall cs, sum_list (map (fun ch => if String.eqb (name_at (fst ch)) k then polygon_area (snd (nth (fst ch) l (EmptyString, []))) * (H (S (snd ch)) - H (snd ch)) else 0)
     (flat_map (fun c => map (pair c) (seq 0 (layers (name_at c)))) cs)) =
     sum_list (map (fun c => if String.eqb (name_at c) k then polygon_area (snd (nth c l (EmptyString, []))) else 0) cs) * (H (layers k) - H 0%nat)).
  { induction cs as [|c cs IH]; [unfold sum_list; cbn; ring|]. cbn [flat_map]. rewrite map_app, sum_list_app, E, IH. unfold sum_list. cbn [map fold_right]. ring. }
  unfold all_places. rewrite E2. f_equal. f_equal. unfold name_at.
  assert (E3 : forall l' : list (string * list (R * R * R)), map (fun c => if String.eqb (fst (nth c l' (EmptyString, []))) k then polygon_area (snd (nth c l' (EmptyString, []))) else 0) (seq 0 (length l')) =
     map (fun x => if String.eqb (fst x) k then polygon_area (snd x) else 0) l').
  { intros l'. apply nth_error_ext. intros i. rewrite !nth_error_map. destruct (nth_error l' i) as [x|] eqn:Ex.
    - rewrite Stack3_proof.nth_error_seq_lt by (apply nth_error_Some; congruence). cbn. now rewrite (nth_error_nth _ _ _ Ex).
    - apply nth_error_None in Ex. rewrite (proj2 (nth_error_None (seq 0 (length l')) i)) by (now rewrite seq_length). reflexivity. }
  apply E3.
Qed.
End Stacks.
