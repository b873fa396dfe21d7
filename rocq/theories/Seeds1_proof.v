From Coq Require Import Reals Lra Lia.
From Verif Require Import Prelude RealAux Perc_model Perc_proof Grid Surface_model Surface_spec Volume_model
  Groups_model Lines_model Voronoi_model Objects_model Objects_spec Objects1_proof Objects3_proof Objects5_proof Seeds_model Seeds_spec.
Open Scope R_scope.

Lemma flatten_plane axis p : flatten axis p = in_plane axis p.
Proof. destruct p as [[x y] z]. destruct axis as [|[|a]]; reflexivity. Qed.

Lemma map_flatten axis c : map (flatten axis) c = map (in_plane axis) c.
Proof. apply map_ext, flatten_plane. Qed.

Lemma nth_of {A} (l : list A) i x d : nth_error l i = Some x -> nth i l d = x.
Proof. intros H. apply nth_error_nth with (d := d) in H. exact H. Qed.

Lemma nth_some {A} (l : list A) k : (k < length l)%nat -> exists x, nth_error l k = Some x.
Proof. intros H. destruct (nth_error l k) eqn:E; eauto. apply nth_error_None in E. lia. Qed.

(* cells of grids *)
Lemma grid_cells_length n m pts : length (grid_cells n m pts) = ((n - 1) * (m - 1))%nat.
Proof.
  unfold grid_cells. rewrite (flat_map_seq_length _ _ _ (n - 1)); [lia|].
  intros. rewrite map_length, seq_length. reflexivity.
Qed.

Lemma grid_cells_nth n m pts i j : (i < n - 1)%nat -> (j < m - 1)%nat ->
  nth_error (grid_cells n m pts) (i + (n - 1) * j) =
  Some (map (fun k => nth k pts origin) [i + n * j; S i + n * j; S i + n * S j; i + n * S j]%nat).
Proof.
  intros Hi Hj. unfold grid_cells. replace (i + (n - 1) * j)%nat with (j * (n - 1) + i)%nat by lia.
  rewrite flat_map_seq_nth with (L := (n - 1)%nat); auto.
  - rewrite nth_error_map, nth_error_seq. destruct (Nat.ltb_spec i (n - 1)); [|lia]. reflexivity.
  - intros. rewrite map_length, seq_length. reflexivity.
Qed.

Lemma surface_dims_xy n m : (2 <= n)%nat -> (2 <= m)%nat -> surface_dims (n, m, 1%nat) = [n; m].
Proof.
  intros Hn Hm. unfold surface_dims. cbn [filter].
  destruct (Nat.eqb_spec n 1); [lia|]. destruct (Nat.eqb_spec m 1); [lia|]. reflexivity.
Qed.

Lemma fan_ok radius s p center c :
  0 < radius -> subdivides s p -> (2 <= length p)%nat -> offset center c ->
  exists m, Circle radius s center = Ok m /\ length (fan_cells m) = (length p - 1)%nat /\
    forall k t t', nth_error p k = Some t -> nth_error p (S k) = Some t' ->
      nth_error (fan_cells m) k = Some (pie c radius (360 * t) (360 * t')).
Proof.
  intros Hr S L O. destruct (sector_ok radius 0 360 s p center c Hr S L O) as (m & E & L1 & N0 & N & L2 & Nc).
  exists m. split; [exact E|]. unfold fan_cells. split; [rewrite map_length; exact L2|].
  intros k t t' Ht Ht'. assert (Hk : (Datatypes.S k < length p)%nat) by (apply nth_error_Some; congruence).
  rewrite nth_error_map, (Nc k) by lia. cbn [option_map map]. unfold pie. f_equal.
  rewrite (nth_of _ _ _ origin N0), (nth_of _ _ _ origin (N k t Ht)), (nth_of _ _ _ origin (N (Datatypes.S k) t' Ht')).
  unfold Objects_spec.between. replace ((1 - t) * 0 + t * 360) with (360 * t) by ring.
  replace ((1 - t') * 0 + t' * 360) with (360 * t') by ring. reflexivity.
Qed.

Lemma sub_one : subdivides (mkSub (ResInt 1) None) [0; 1].
Proof.
  unfold subdivides. cbn [sb_res sb_method]. rewrite <- perc_none. exact sub_none.
Qed.

Lemma rings_ok areas inner outer ts p center c :
  0 <= inner < outer -> subdivides ts p -> (2 <= length p)%nat -> offset center c ->
  exists g, Annulus areas inner outer (mkSub (ResInt 1) None) ts center = Ok g /\
    length (sgrid_cells g) = (length p - 1)%nat /\
    forall k t t', nth_error p k = Some t -> nth_error p (S k) = Some t' ->
      nth_error (sgrid_cells g) k = Some (ring c inner outer (360 * t) (360 * t')).
Proof.
  intros Hr S L O.
  destruct (annular_ok areas inner outer 0 360 _ ts _ p center c Hr sub_one S L O) as (g & E & D & Lp & _ & _ & _ & N).
  exists g. split; [exact E|]. unfold sgrid_cells. rewrite D. cbn [length]. rewrite surface_dims_xy by (auto; lia).
  split; [rewrite grid_cells_length; lia|].
  intros k t t' Ht Ht'. assert (Hk : (Datatypes.S k < length p)%nat) by (apply nth_error_Some; congruence).
  pose proof (grid_cells_nth (length p) 2 (sg_pts g) k 0 ltac:(lia) ltac:(lia)) as G.
  replace (k + (length p - 1) * 0)%nat with k in G by lia. rewrite G. f_equal.
  unfold node, at_coord in N. rewrite D in N. cbn [fidx length] in N.
  pose proof (N k 0%nat t 0 Ht eq_refl) as A. pose proof (N (Datatypes.S k) 0%nat t' 0 Ht' eq_refl) as B.
  pose proof (N (Datatypes.S k) 1%nat t' 1 Ht' eq_refl) as Cc. pose proof (N k 1%nat t 1 Ht eq_refl) as Dd.
  replace (k + length p * (0 + 2 * 0))%nat with (k + length p * 0)%nat in A by lia.
  replace (Datatypes.S k + length p * (0 + 2 * 0))%nat with (Datatypes.S k + length p * 0)%nat in B by lia.
  replace (Datatypes.S k + length p * (1 + 2 * 0))%nat with (Datatypes.S k + length p * 1)%nat in Cc by lia.
  replace (k + length p * (1 + 2 * 0))%nat with (k + length p * 1)%nat in Dd by lia.
  cbn [map]. rewrite (nth_of _ _ _ origin A), (nth_of _ _ _ origin B), (nth_of _ _ _ origin Cc), (nth_of _ _ _ origin Dd).
  unfold ring, Objects_spec.between. replace ((1 - t) * 0 + t * 360) with (360 * t) by ring.
  replace ((1 - t') * 0 + t' * 360) with (360 * t') by ring.
  replace ((1 - 0) * inner + 0 * outer) with inner by ring. replace ((1 - 1) * inner + 1 * outer) with outer by ring.
  reflexivity.
Qed.

(* the merged mesh *)
Definition both (swap : bool) (A B : list (list pt)) := if swap then B ++ A else A ++ B.

Lemma map_fst_combine {X Y} (l : list X) (m : list Y) : length l = length m -> map fst (combine l m) = l.
Proof. revert m; induction l as [|x l IH]; intros [|y m] H; cbn in *; try lia; [reflexivity|]. f_equal. apply IH. lia. Qed.
Lemma map_snd_combine {X Y} (l : list X) (m : list Y) : length l = length m -> map snd (combine l m) = m.
Proof. revert m; induction l as [|x l IH]; intros [|y m] H; cbn in *; try lia; [reflexivity|]. f_equal. apply IH. lia. Qed.

Lemma repeat_neg_set n : mask_set 0%Z (map (fun x => (x =? -1)%Z) (repeat (-1)%Z n)) (repeat (-1)%Z n) = repeat 0%Z n.
Proof. induction n as [|n IH]; [reflexivity|]. cbn. f_equal. exact IH. Qed.

Lemma init_fresh (cells : list (list pt)) groups : cells <> [] ->
  initialize_group_array (mk_options "" []) (mkG cells None None) groups GNone "" =
  (let '(n, groups') := get_group_number "default" groups in
   Ok (mask_set n (map (fun x => (x =? -1)%Z) (repeat (-1)%Z (length cells))) (repeat (-1)%Z (length cells)), groups')).
Proof.
  intros H. unfold initialize_group_array. cbn [gm_cg gm_labels gm_cells bind].
  destruct cells as [|c cells]; [congruence|]. cbn [length repeat existsb Z.eqb Pos.eqb orb].
  cbn [mk_options default_group String.eqb]. destruct (get_group_number "default" groups); reflexivity.
Qed.

Lemma merged_ok swap A B : A <> [] -> B <> [] ->
  exists its, merge_generate (mk_options "" []) swap [(mkG A None None, ""%string); (mkG B None None, ""%string)] =
    Ok (mkG (both swap A B) (Some (repeat 0%Z (length A + length B))) (Some [("default"%string, 0%Z)]), its).
Proof.
  intros HA HB. unfold merge_generate, merge_loop.
  rewrite (init_fresh A [] HA). cbn [get_group_number dget bind length app Z.of_nat]. rewrite repeat_neg_set.
  rewrite (init_fresh B _ HB). cbn [get_group_number dget String.eqb Ascii.eqb Bool.eqb bind]. rewrite repeat_neg_set.
  set (out := if swap then _ else _).
  assert (E1 : map fst out = both swap A B).
  { unfold out, both. cbn [gm_cells]. destruct swap; rewrite map_app, !map_fst_combine; auto; rewrite repeat_length; reflexivity. }
  assert (E2 : map snd out = repeat 0%Z (length A + length B)).
  { unfold out. cbn [gm_cells]. destruct swap; rewrite map_app, !map_snd_combine, <- repeat_app by (rewrite repeat_length; reflexivity).
    - f_equal. lia. - f_equal. }
  rewrite E2. unfold clean_groups.
  destruct A as [|a A']; [congruence|]. cbn [length Nat.add repeat]. cbn [map snd existsb Z.eqb orb forallb andb bind].
  rewrite E1. eexists. reflexivity.
Qed.

Section Circle.
Variable areas : shape3 -> list pt -> list R.
Variable swap : bool.

Lemma constraint_val radius arg cr : constraint_of radius arg cr ->
  match arg with Some c => c | None => 3 / 2 * radius end = cr.
Proof. intros [-> | [-> ->]]; reflexivity. Qed.

Lemma circle_two axis s radius arg cr res p center c plain prio group :
  constraint_of radius arg cr -> 0 < radius -> radius < cr < 2 * radius ->
  subdivides (mkSub res None) p -> (2 <= length p)%nat -> offset center c ->
  exists s' it1 it2, add_circle areas swap axis s radius arg res center plain prio group = (s', Ok tt) /\
    s_items s' = s_items s ++ [it1; it2] /\
    vi_prio it1 = prio /\ vi_group it1 = group /\ vi_poly it1 = false /\
    vi_prio it2 = 0%Z /\ vi_group it2 = ""%string /\ vi_poly it2 = false /\
    length (cells_of it1) = (2 * (length p - 1))%nat /\ length (cells_of it2) = (length p - 1)%nat /\
    gm_cg (vi_mesh it1) = Some (repeat 0%Z (length (cells_of it1))) /\
    gm_labels (vi_mesh it1) = Some [("default"%string, 0%Z)] /\
    gm_cg (vi_mesh it2) = None /\
    (forall k t t', nth_error p k = Some t -> nth_error p (S k) = Some t' ->
      In (map (in_plane axis) (pie c (2 * radius - cr) (360 * t) (360 * t'))) (cells_of it1) /\
      In (map (in_plane axis) (ring c (2 * radius - cr) radius (360 * t) (360 * t'))) (cells_of it1) /\
      nth_error (cells_of it2) k = Some (map (in_plane axis) (ring c radius cr (360 * t) (360 * t')))) /\
    (forall cell, In cell (cells_of it1) \/ In cell (cells_of it2) -> exists k t t' r1 r2,
      nth_error p k = Some t /\ nth_error p (S k) = Some t' /\
      (cell = map (in_plane axis) (pie c r1 (360 * t) (360 * t')) \/ cell = map (in_plane axis) (ring c r1 r2 (360 * t) (360 * t')))) /\
    s_fuse s' = s_fuse s ++ (if plain then match plain_center axis center with Ok q => [inside q radius] | Err _ => [] end else []).
Proof.
  intros Hc Hr Hcr S L O. unfold add_circle. rewrite (constraint_val _ _ _ Hc).
  destruct (Rlt_dec 0 (cr - radius)) as [_|]; [|lra].
  destruct (fan_ok (radius - (cr - radius)) _ p center c ltac:(lra) S L O) as (m & Em & Lm & Nm).
  destruct (rings_ok areas (radius - (cr - radius)) radius _ p center c ltac:(lra) S L O) as (g & Eg & Lg & Ng).
  destruct (rings_ok areas radius (radius + (cr - radius)) _ p center c ltac:(lra) S L O) as (h & Eh & Lh & Nh).
  rewrite Em. cbn [after]. rewrite Eg. cbn [after].
  destruct (merged_ok swap (fan_cells m) (sgrid_cells g)) as (its & Ei);
    [intros X; rewrite X in Lm; cbn in Lm; lia|intros X; rewrite X in Lg; cbn in Lg; lia|].
  rewrite Ei. cbn [after fst]. rewrite Eh. cbn [after].
  set (it1 := mkVI (mkG (map (map (flatten axis)) (both swap (fan_cells m) (sgrid_cells g)))
     (Some (repeat 0%Z (length (fan_cells m) + length (sgrid_cells g)))) (Some [("default"%string, 0%Z)])) false group prio).
  set (it2 := mkVI (mkG (map (map (flatten axis)) (sgrid_cells h)) None None) false ""%string 0%Z : vitem (list pt)).
  assert (Lb : length (both swap (fan_cells m) (sgrid_cells g)) = (2 * (length p - 1))%nat).
  { unfold both. destruct swap; rewrite app_length; lia. }
  set (s2 := add_mesh axis _ _ _ _ _).
  assert (I2 : s_items s2 = s_items s ++ [it1; it2]).
  { unfold s2, add_mesh. cbn [s_items gm_cells gm_cg gm_labels]. rewrite <- app_assoc. reflexivity. }
  assert (F2 : s_fuse s2 = s_fuse s) by reflexivity. clearbody s2.
  assert (Hfin : exists s', (if plain then after s2 (plain_center axis center) (fun c0 =>
        (mkSeeds (s_items s2) (s_fuse s2 ++ [inside c0 radius]), Ok tt)) else (s2, Ok tt)) = (s', Ok tt) /\
      s_items s' = s_items s2 /\
      s_fuse s' = s_fuse s ++ (if plain then match plain_center axis center with Ok q => [inside q radius] | Err _ => [] end else [])).
  { destruct plain.
    - destruct O; cbn [plain_center after]; eexists; (split; [reflexivity|]); cbn [s_items s_fuse]; rewrite F2; auto.
    - exists s2. rewrite app_nil_r. auto. }
  destruct Hfin as (s' & Es & Is & Fs). exists s', it1, it2. split; [exact Es|].
  split; [rewrite Is; exact I2|]. do 6 (split; [reflexivity|]).
  unfold cells_of. unfold it1, it2. cbn [vi_mesh gm_cells gm_cg gm_labels].
  split; [rewrite map_length; exact Lb|]. split; [rewrite map_length; exact Lh|].
  split; [rewrite map_length, Lb; do 2 f_equal; lia|]. split; [reflexivity|]. split; [reflexivity|].
  replace (radius - (cr - radius)) with (2 * radius - cr) in * by ring. replace (radius + (cr - radius)) with cr in * by ring.
  split; [|split; [|exact Fs]].
  - intros k t t' Ht Ht'. rewrite nth_error_map, (Nh k t t' Ht Ht'). cbn [option_map]. rewrite map_flatten.
    rewrite <- !map_flatten.
    split; [|split; [|reflexivity]]; apply in_map; unfold both.
    + assert (In (pie c (2 * radius - cr) (360 * t) (360 * t')) (fan_cells m)) by (eapply nth_error_In; eauto).
      destruct swap; apply in_or_app; auto.
    + assert (In (ring c (2 * radius - cr) radius (360 * t) (360 * t')) (sgrid_cells g)) by (eapply nth_error_In; eauto).
      destruct swap; apply in_or_app; auto.
  - assert (P : forall k, (k < length p - 1)%nat -> exists t t', nth_error p k = Some t /\ nth_error p (Datatypes.S k) = Some t').
    { intros k Hk. destruct (nth_some p k) as (t & Ht); [lia|]. destruct (nth_some p (Datatypes.S k)) as (t' & Ht'); [lia|]. eauto. }
    assert (Q1 : forall x, In x (fan_cells m) -> exists k t t', nth_error p k = Some t /\ nth_error p (Datatypes.S k) = Some t' /\ x = pie c (2 * radius - cr) (360 * t) (360 * t')).
    { intros x Hx. apply In_nth_error in Hx as (k & Hk). destruct (P k) as (t & t' & Ht & Ht').
      { rewrite <- Lm. apply nth_error_Some. congruence. }
      exists k, t, t'. rewrite (Nm k t t' Ht Ht') in Hk. injection Hk as <-. auto. }
    assert (Q : forall G r1 r2, length (sgrid_cells G) = (length p - 1)%nat ->
       (forall k t t', nth_error p k = Some t -> nth_error p (Datatypes.S k) = Some t' ->
         nth_error (@sgrid_cells unit G) k = Some (ring c r1 r2 (360 * t) (360 * t'))) ->
       forall x, In x (sgrid_cells G) -> exists k t t', nth_error p k = Some t /\ nth_error p (Datatypes.S k) = Some t' /\ x = ring c r1 r2 (360 * t) (360 * t')).
    { intros G r1 r2 LG NG x Hx. apply In_nth_error in Hx as (k & Hk). destruct (P k) as (t & t' & Ht & Ht').
      { rewrite <- LG. apply nth_error_Some. congruence. }
      exists k, t, t'. rewrite (NG k t t' Ht Ht') in Hk. injection Hk as <-. auto. }
    intros cell [Hin|Hin]; apply in_map_iff in Hin as (x & <- & Hx); rewrite map_flatten.
    + assert (Hx' : In x (fan_cells m) \/ In x (sgrid_cells g)).
      { unfold both in Hx. destruct swap; apply in_app_or in Hx; tauto. }
      destruct Hx' as [Hx'|Hx'].
      * destruct (Q1 x Hx') as (k & t & t' & A & B & ->). exists k, t, t', (2 * radius - cr), 0. auto.
      * destruct (Q g _ _ Lg Ng x Hx') as (k & t & t' & A & B & ->). exists k, t, t', (2 * radius - cr), radius. auto.
    + destruct (Q h _ _ Lh Nh x Hx) as (k & t & t' & A & B & ->). exists k, t, t', radius, cr. auto.
Qed.

Lemma circle_one axis s radius arg res p center c plain prio group :
  constraint_of radius arg radius -> 0 < radius ->
  subdivides (mkSub res None) p -> (2 <= length p)%nat -> offset center c ->
  exists s' it, add_circle areas swap axis s radius arg res center plain prio group = (s', Ok tt) /\
    s_items s' = s_items s ++ [it] /\ vi_prio it = prio /\ vi_group it = group /\ vi_poly it = false /\
    length (cells_of it) = (length p - 1)%nat /\ gm_cg (vi_mesh it) = None /\
    (forall k t t', nth_error p k = Some t -> nth_error p (S k) = Some t' ->
      nth_error (cells_of it) k = Some (map (in_plane axis) (pie c radius (360 * t) (360 * t')))) /\
    s_fuse s' = s_fuse s ++ (if plain then match plain_center axis center with Ok q => [inside q radius] | Err _ => [] end else []).
Proof.
  intros Hc Hr S L O. unfold add_circle. rewrite (constraint_val _ _ _ Hc).
  destruct (Rlt_dec 0 (radius - radius)) as [H|_]; [lra|]. destruct (Req_EM_T (radius - radius) 0) as [_|H]; [|lra].
  destruct (fan_ok radius _ p center c Hr S L O) as (m & Em & Lm & Nm). rewrite Em. cbn [after].
  set (it := mkVI (mkG (map (map (flatten axis)) (fan_cells m)) None None) false group prio : vitem (list pt)).
  set (s2 := add_mesh axis _ _ _ _ _).
  assert (I2 : s_items s2 = s_items s ++ [it]) by reflexivity.
  assert (F2 : s_fuse s2 = s_fuse s) by reflexivity. clearbody s2.
  assert (Hfin : exists s', (if plain then after s2 (plain_center axis center) (fun c0 =>
        (mkSeeds (s_items s2) (s_fuse s2 ++ [inside c0 radius]), Ok tt)) else (s2, Ok tt)) = (s', Ok tt) /\
      s_items s' = s_items s2 /\
      s_fuse s' = s_fuse s ++ (if plain then match plain_center axis center with Ok q => [inside q radius] | Err _ => [] end else [])).
  { destruct plain.
    - destruct O; cbn [plain_center after]; eexists; (split; [reflexivity|]); cbn [s_items s_fuse]; rewrite F2; auto.
    - exists s2. rewrite app_nil_r. auto. }
  destruct Hfin as (s' & Es & Is & Fs). exists s', it. split; [exact Es|]. split; [rewrite Is; exact I2|].
  do 3 (split; [reflexivity|]). unfold cells_of, it. cbn [vi_mesh gm_cells gm_cg].
  split; [rewrite map_length; exact Lm|]. split; [reflexivity|]. split; [|exact Fs].
  intros k t t' Ht Ht'. rewrite nth_error_map, (Nm k t t' Ht Ht'). cbn [option_map]. rewrite map_flatten. reflexivity.
Qed.
End Circle.
