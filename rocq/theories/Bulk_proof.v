From Coq Require Import Reals Lra.
From Verif Require Import Perc_spec Perc_proof Surface_spec Surface_proof Volume_model Volume_spec Unstr_spec
  Ring_proof UVol_proof Encl_spec Topo_model Topo2_proof Bulk_spec.
Open Scope R_scope.

Lemma wedge_volume P e a b c a' b' c' ha hb hc : P a' = vadd (P a) (scaled ha e) -> P b' = vadd (P b) (scaled hb e) -> P c' = vadd (P c) (scaled hc e) ->
  enclosed_volume P [[a; c; b]; [a'; b'; c']; [a; b; b'; a']; [b; c; c'; b']; [a; a'; c'; c]] = turn P e a b c / 2 * ((ha + hb + hc) / 3).
Proof.
  intros Ha Hb Hc. unfold enclosed_volume, face_volume, area_along, turn. cbn [fold_right ring_edges pairs List.hd map tl app].
  rewrite Ha, Hb, Hc. destruct (P a) as [[? ?] ?], (P b) as [[? ?] ?], (P c) as [[? ?] ?], e as [[? ?] ?]. cbn. field.
Qed.

Lemma hexahedron_volume P e a b c d a' b' c' d' ha hb hc hd : P a' = vadd (P a) (scaled ha e) -> P b' = vadd (P b) (scaled hb e) ->
  P c' = vadd (P c) (scaled hc e) -> P d' = vadd (P d) (scaled hd e) ->
  enclosed_volume P [[a; d; c; b]; [a'; b'; c'; d']; [a; b; b'; a']; [b; c; c'; b']; [c; d; d'; c']; [a; a'; d'; d]] =
    turn P e a b c / 2 * ((ha + hb + hc) / 3) + turn P e a c d / 2 * ((ha + hc + hd) / 3).
Proof.
  intros Ha Hb Hc Hd. unfold enclosed_volume, face_volume, area_along, turn. cbn [fold_right ring_edges pairs List.hd map tl app].
  rewrite Ha, Hb, Hc, Hd. destruct (P a) as [[? ?] ?], (P b) as [[? ?] ?], (P c) as [[? ?] ?], (P d) as [[? ?] ?], e as [[? ?] ?]. cbn. field.
Qed.

Section Extruded.
Context (pts : list vec) (f : nat -> nat) (np l : nat) (P : nat -> vec) (e : vec) (H : nat -> R) (x y : R).
Definition raised (u : nat) : Prop :=
  nth_error pts (f (u + l * np)%nat) = Some (vadd (P u) (scaled (x * H u) e)) /\
  nth_error pts (f (u + S l * np)%nat) = Some (vadd (P u) (scaled (y * H u) e)).

Lemma raised_up u : raised u -> at_pts pts (f (u + S l * np)%nat) = vadd (at_pts pts (f (u + l * np)%nat)) (scaled ((y - x) * H u) e).
Proof.
  intros [H1 H2]. unfold at_pts. rewrite (nth_error_nth _ _ _ H1), (nth_error_nth _ _ _ H2).
  destruct (P u) as [[? ?] ?], e as [[? ?] ?]. cbn. f_equal; [f_equal|]; ring.
Qed.
Lemma raised_turn a b c : raised a -> raised b -> raised c ->
  turn (at_pts pts) e (f (a + l * np)%nat) (f (b + l * np)%nat) (f (c + l * np)%nat) = turn P e a b c.
Proof.
  intros [Ha _] [Hb _] [Hc _]. unfold turn, at_pts. rewrite (nth_error_nth _ _ _ Ha), (nth_error_nth _ _ _ Hb), (nth_error_nth _ _ _ Hc).
  destruct (P a) as [[? ?] ?], (P b) as [[? ?] ?], (P c) as [[? ?] ?], e as [[? ?] ?]. cbn. ring.
Qed.

Lemma extruded_volume invert base cell : small_base base -> extruded invert np l base cell -> (forall u, In u (snd base) -> raised u) ->
  has_volume pts (rename f cell) ((y - x) * volume_above P e H (corners base)).
Proof.
  intros HS HE HR. assert (HQ : forall a b c d, (forall u, In u [a; b; c; d] -> raised u) ->
    has_volume pts (rename f (Plain 12 (lift l np [a; b; c; d] ++ lift (S l) np [a; b; c; d]))) ((y - x) * volume_above P e H [a; b; c; d])).
  { intros a b c d HR'. cbn [rename lift map app]. eexists. split; [constructor|].
    pose proof (HR' a ltac:(cbn; auto)) as Ra. pose proof (HR' b ltac:(cbn; auto)) as Rb. pose proof (HR' c ltac:(cbn; auto)) as Rc. pose proof (HR' d ltac:(cbn; auto)) as Rd.
    rewrite (hexahedron_volume _ e _ _ _ _ _ _ _ _ _ _ _ _ (raised_up a Ra) (raised_up b Rb) (raised_up c Rc) (raised_up d Rd)).
    rewrite !raised_turn by assumption. cbn [volume_above columns_above]. field. }
  inversion HE as [ids E|ids E|a b c d E|ids ring Hr E]; subst; destruct HS as [[T L]|[T L]]; cbn [fst snd] in *; try discriminate;
    try (destruct T; discriminate).
  - destruct ids as [|a [|b [|c [|]]]]; try discriminate. cbn [rename lift map app corners]. eexists. split; [constructor|].
    pose proof (HR a ltac:(cbn; auto)) as Ra. pose proof (HR b ltac:(cbn; auto)) as Rb. pose proof (HR c ltac:(cbn; auto)) as Rc.
    rewrite (wedge_volume _ e _ _ _ _ _ _ _ _ _ (raised_up a Ra) (raised_up b Rb) (raised_up c Rc)).
    rewrite !raised_turn by assumption. cbn [volume_above columns_above]. field.
  - destruct ids as [|a [|b [|c [|d [|]]]]]; try discriminate. apply HQ. exact HR.
  - cbn [corners]. apply HQ. intros u Hu. apply HR. cbn in Hu |- *. tauto.
Qed.
End Extruded.

(* constant columns *)
Lemma volume_const P e base : small_base base -> volume_above P e (fun _ => 1) (corners base) = area_along P e (corners base) / 2.
Proof.
  destruct base as [ty ids]. intros [[T L]|[T L]]; cbn [fst snd] in *.
  - subst ty. destruct ids as [|a [|b [|c [|]]]]; try discriminate. cbn [corners volume_above columns_above]. unfold area_along, turn. cbn [ring_edges pairs app fold_right].
    destruct (P a) as [[? ?] ?], (P b) as [[? ?] ?], (P c) as [[? ?] ?], e as [[? ?] ?]. cbn. field.
  - destruct ids as [|a [|b [|c [|d [|]]]]]; try discriminate.
    assert (HQ : forall b c d, volume_above P e (fun _ => 1) [a; b; c; d] = area_along P e [a; b; c; d] / 2).
    { clear. intros b c d. cbn [volume_above columns_above]. unfold area_along, turn. cbn [ring_edges pairs app fold_right].
      destruct (P a) as [[? ?] ?], (P b) as [[? ?] ?], (P c) as [[? ?] ?], (P d) as [[? ?] ?], e as [[? ?] ?]. cbn. field. }
    destruct T; subst ty; apply HQ.
Qed.

Lemma closed_table (table : list (list nat)) (ids : list nat) : NoDup ids ->
  forallb (fun e => (fst e <? length ids) && (snd e <? length ids))%nat (surface_edges table) = true ->
  NoDup (surface_edges table) -> (forall u v, In (u, v) (surface_edges table) -> In (v, u) (surface_edges table)) ->
  closed_oriented (map (map (fun k => nth k ids 0%nat)) table).
Proof.
  intros Hn Hb Hd Hs. set (g := fun e : nat * nat => (nth (fst e) ids 0%nat, nth (snd e) ids 0%nat)).
  assert (E : surface_edges (map (map (fun k => nth k ids 0%nat)) table) = map g (surface_edges table)).
  { unfold surface_edges. clear. induction table as [|f t IH]; [reflexivity|]. cbn [map flat_map]. now rewrite map_app, ring_edges_map, IH. }
  rewrite forallb_forall in Hb.
  assert (Hg : forall x y, In x (surface_edges table) -> In y (surface_edges table) -> g x = g y -> x = y).
  { intros [a b] [c d] Hx Hy Eg. apply Hb in Hx, Hy. apply andb_true_iff in Hx as [X1 X2]. apply andb_true_iff in Hy as [Y1 Y2].
    apply Nat.ltb_lt in X1, X2, Y1, Y2. cbn [fst snd] in *. unfold g in Eg. cbn [fst snd] in Eg. injection Eg as E1 E2.
    rewrite (NoDup_nth ids 0%nat) in Hn. f_equal; auto. }
  assert (Hnd : NoDup (map g (surface_edges table))).
  { clear - Hg Hd. induction Hd as [|x l Hx Hd IH]; cbn [map]; constructor.
    - intros Hin. apply in_map_iff in Hin as (z & Ez & Hz). apply Hg in Ez; cbn; auto. subst. contradiction.
    - apply IH. intros; apply Hg; cbn; auto. }
  intros u v. unfold edge_count. rewrite E.
  assert (Hc : forall e, (count_occ edge_dec (map g (surface_edges table)) e <= 1)%nat) by (apply (NoDup_count_occ edge_dec); exact Hnd).
  assert (Hsym : forall u v, In (u, v) (map g (surface_edges table)) -> In (v, u) (map g (surface_edges table))).
  { intros u0 v0 Hin. apply in_map_iff in Hin as ([a b] & Eg & Hab). injection Eg as <- <-. apply Hs in Hab. apply in_map_iff. exists (b, a). auto. }
  split; [apply Hc|]. pose proof (Hc (u, v)). pose proof (Hc (v, u)).
  destruct (in_dec edge_dec (u, v) (map g (surface_edges table))) as [I|I].
  - pose proof (Hsym _ _ I) as I'. apply (count_occ_In edge_dec) in I, I'. lia.
  - assert (I' : ~ In (v, u) (map g (surface_edges table))) by (intros X; apply I, Hsym, X).
    apply (count_occ_not_In edge_dec) in I, I'. lia.
Qed.

Definition edges_closed (l : list (nat * nat)) : bool := forallb (fun e => if in_dec edge_dec (snd e, fst e) l then true else false) l.
Lemma edges_closed_spec l : edges_closed l = true -> forall u v, In (u, v) l -> In (v, u) l.
Proof. unfold edges_closed. rewrite forallb_forall. intros H u v Hin. apply H in Hin. cbn [fst snd] in Hin. destruct (in_dec edge_dec (v, u) l); [auto|discriminate]. Qed.
Lemma distinct_edges l : (if list_eq_dec edge_dec (nodup edge_dec l) l then true else false) = true -> NoDup l.
Proof. destruct (list_eq_dec _ _ _) as [E|]; [|discriminate]. intros _. rewrite <- E. apply NoDup_nodup. Qed.

Lemma closed_faces cell faces : outer_faces cell faces -> NoDup (vcell_ids cell) -> closed_oriented faces.
Proof.
  intros [a b c a' b' c'|a b c d a' b' c' d'] Hn; cbn [vcell_ids] in Hn.
  - apply (closed_table [[0;2;1];[3;4;5];[0;1;4;3];[1;2;5;4];[0;3;5;2]]%nat [a;b;c;a';b';c'] Hn); [reflexivity| |].
    + apply distinct_edges. reflexivity.
    + apply edges_closed_spec. reflexivity.
  - apply (closed_table [[0;3;2;1];[4;5;6;7];[0;1;5;4];[1;2;6;5];[2;3;7;6];[0;4;7;3]]%nat [a;b;c;d;a';b';c';d'] Hn); [reflexivity| |].
    + apply distinct_edges. reflexivity.
    + apply edges_closed_spec. reflexivity.
Qed.

Lemma within0 p q : within 0 p q -> q = p.
Proof.
  destruct p as [[x y] z], q as [[x' y'] z']. intros (W1 & W2 & W3). assert (HR : forall a b, Rabs (a - b) <= 0 -> b = a).
  { intros a b H. pose proof (Rabs_pos (a - b)). destruct (Req_dec (a - b) 0); [lra|]. pose proof (Rabs_pos_lt (a - b)). lra. }
  now rewrite (HR _ _ W1), (HR _ _ W2), (HR _ _ W3).
Qed.

Lemma corners_in base u : In u (corners base) -> In u (snd base).
Proof.
  destruct base as [ty ids]. cbn [snd]. intros H.
  assert (C : corners (ty, ids) = ids \/ exists a b c d, ids = [a; b; c; d] /\ corners (ty, ids) = [a; b; d; c]).
  { unfold corners. do 9 (destruct ty as [|ty]; [try (left; reflexivity)|]); [|left; reflexivity].
    destruct ids as [|a [|b [|c [|d [|]]]]]; try (left; reflexivity). right. exists a, b, c, d. auto. }
  destruct C as [C|(a & b & c & d & -> & C)]; rewrite C in H; [exact H|]. cbn in *. tauto.
Qed.

Lemma volume_shift P Q e H k ring : (forall u, In u ring -> P u = vadd (Q u) (scaled (k u) e)) -> volume_above P e H ring = volume_above Q e H ring.
Proof.
  destruct ring as [|a ring]; intros HP; [reflexivity|]. cbn [volume_above]. pose proof (HP a ltac:(now left)) as Ha.
  assert (HP' : forall u, In u ring -> P u = vadd (Q u) (scaled (k u) e)) by (intros; apply HP; now right). clear HP.
  induction ring as [|b ring IH]; [reflexivity|]. destruct ring as [|c ring]; [reflexivity|].
  change (columns_above P e H a (b :: c :: ring)) with (turn P e a b c / 2 * ((H a + H b + H c) / 3) + columns_above P e H a (c :: ring)).
  change (columns_above Q e H a (b :: c :: ring)) with (turn Q e a b c / 2 * ((H a + H b + H c) / 3) + columns_above Q e H a (c :: ring)).
  rewrite IH by (intros; apply HP'; now right). f_equal. f_equal. f_equal. unfold turn.
  rewrite Ha, (HP' b), (HP' c) by (cbn; auto). destruct (Q a) as [[? ?] ?], (Q b) as [[? ?] ?], (Q c) as [[? ?] ?], e as [[? ?] ?]. cbn. ring.
Qed.

(* one call of generate_volume_unstructured *)
Lemma layer_volume {D} (sa sb : usurf D) r m invert v perc e H c base :
  generate_volume_unstructured sa sb r m invert = Ok v -> resolution_to_perc r m = Ok perc ->
  nth_error (us_cells sa) c = Some base -> small_base base ->
  (forall u, In u (snd base) -> exists p, nth_error (us_pts sa) u = Some p /\ nth_error (us_pts sb) u = Some (vadd p (scaled (H u) e))) ->
  exists cells, decode (uv_types v) (uv_stream v) = Some cells /\
    forall l x y, nth_error perc l = Some x -> nth_error perc (S l) = Some y ->
      exists cell, nth_error cells (l * length (us_cells sa) + c) = Some cell /\
        has_volume (uv_pts v) cell ((y - x) * volume_above (at_pts (us_pts sa)) e H (corners base)).
Proof.
  intros Hg Hperc Hc HS HP. apply uvol_cells in Hg. destruct Hg as (perc' & cells & Hp & Hn & Hdec & _ & Hlv & Hpts & Hcells).
  assert (perc' = perc) as -> by congruence. exists cells. split; [exact Hdec|]. intros l x y Ex Ey.
  assert (Hl : (l < length perc - 1)%nat) by (assert (S l < length perc)%nat by (apply nth_error_Some; congruence); lia).
  destruct (Hcells l c _ Hl Hc) as (cell & Hcell & Hext & _). exists cell. split; [exact Hcell|].
  assert (Hren : rename (fun i => i) cell = cell).
  { destruct cell as [ty ids|fs]; cbn; [now rewrite map_id|]. f_equal. rewrite <- (map_id fs) at 2. apply map_ext. apply map_id. }
  rewrite <- Hren. apply (extruded_volume _ (fun i => i) _ _ _ _ _ _ _ invert base cell HS Hext).
  intros u Hu. destruct (HP u Hu) as (p & Ha & Hb).
  assert (HH : forall k t, nth_error perc k = Some t -> nth_error (uv_pts v) (u + k * length (us_pts sa)) = Some (vadd (at_pts (us_pts sa) u) (scaled (t * H u) e))).
  { intros k t Et. rewrite Nat.add_comm. rewrite (Hpts k u t _ _ Et Ha Hb). unfold at_pts. rewrite (nth_error_nth _ _ _ Ha). f_equal.
    destruct p as [[? ?] ?], e as [[? ?] ?]. unfold lerp, lerp1. cbn. f_equal; [f_equal|]; ring. }
  split; apply HH; assumption.
Qed.

Lemma volume_move P w e H ring : volume_above (fun u => vadd (P u) w) e H ring = volume_above P e H ring.
Proof.
  destruct ring as [|a ring]; [reflexivity|]. cbn [volume_above].
  induction ring as [|b ring IH]; [reflexivity|]. destruct ring as [|c ring]; [reflexivity|].
  change (columns_above (fun u => vadd (P u) w) e H a (b :: c :: ring)) with
    (turn (fun u => vadd (P u) w) e a b c / 2 * ((H a + H b + H c) / 3) + columns_above (fun u => vadd (P u) w) e H a (c :: ring)).
  change (columns_above P e H a (b :: c :: ring)) with (turn P e a b c / 2 * ((H a + H b + H c) / 3) + columns_above P e H a (c :: ring)).
  rewrite IH. f_equal. f_equal. f_equal. unfold turn.
  destruct (P a) as [[? ?] ?], (P b) as [[? ?] ?], (P c) as [[? ?] ?], e as [[? ?] ?], w as [[? ?] ?]. cbn. ring.
Qed.

(* the faces of one cell among those of all *)
Lemma cell_faces_at types cells fss i ty ids : cell_faces types cells = Ok fss -> length cells = length types ->
  nth_error types i = Some ty -> nth_error cells i = Some (CIds ids) -> ty = 13%nat \/ ty = 12%nat ->
  exists faces, nth_error fss i = Some faces /\ exists tab, celltype_to_faces ty = Some tab /\ table_faces tab (CIds ids) = Ok faces.
Proof.
  intros HF Hl Hi Hc HT. assert (H42 : (ty =? 42)%nat = false) by (destruct HT; subst; reflexivity).
  unfold cell_faces in HF. destruct types as [|t0 ts]; [discriminate|].
  set (types := t0 :: ts) in *. destruct (forallb (Nat.eqb t0) types) eqn:Ea.
  - assert (ty = t0) as ->.
    { apply nth_error_In in Hi. rewrite forallb_forall in Ea. apply Ea in Hi. apply Nat.eqb_eq in Hi; auto. }
    rewrite H42 in HF. apply mapM_Ok in HF. destruct (Forall2_nth_error _ _ _ _ _ HF Hc) as (fs & Hf & E).
    exists fs. split; [exact Hf|]. destruct (celltype_to_faces t0) as [tab|]; [|discriminate]. eauto.
  - apply mapM_Ok in HF. apply Forall2_combine in HF as [H1 H2]; [|lia]. destruct (H2 i _ ty Hc Hi) as (fs & Hf & E).
    exists fs. split; [exact Hf|]. cbv beta iota in E. rewrite H42 in E.
    destruct HT; subst ty; cbn [celltype_to_faces] in *; eexists; (split; [reflexivity|exact E]).
Qed.

Lemma outer_table ty ids faces : (ty = 13 /\ length ids = 6 \/ ty = 12 /\ length ids = 8)%nat ->
  (exists tab, celltype_to_faces ty = Some tab /\ table_faces tab (CIds ids) = Ok faces) -> outer_faces (Plain ty ids) faces.
Proof.
  intros [[-> L]|[-> L]] (tab & Et & E).
  - do 6 (destruct ids as [|? ids]; [discriminate|]). destruct ids; [|discriminate]. cbn in Et. injection Et as <-. cbn in E. injection E as <-. constructor.
  - do 8 (destruct ids as [|? ids]; [discriminate|]). destruct ids; [|discriminate]. cbn in Et. injection Et as <-. cbn in E. injection E as <-. constructor.
Qed.
