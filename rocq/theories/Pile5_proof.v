From Verif Require Import Lines_spec Lines1_proof RealAux Perc_model Perc_spec Perc_proof Surface_model Surface_spec Surface_proof
  Volume_model Volume_spec Volume_proof SMerge_model SMerge_spec SMerge_proof
  Groups_model Groups_spec Groups_proof Groups2_proof Polygon_model
  Stack_model Stack_spec Gen_proof Stack_proof Stack2_proof Stack3_proof Stack4_proof Stack6_proof Stack7_proof
  Final_model Final_spec Final1_proof Trans_model Trans_spec Trans1_proof Trans2_proof Trans3_proof Trans5_proof Trans6_proof
  Line_spec Line3_proof Settle_spec Settle_proof Input_model Input1_proof
  Unstr_model Unstr_spec Unstr1_proof Unstr2_proof
  Pile_model Pile_spec Pile_proof Pile3_model Pile3_spec Pile3_proof Pile4_model Pile4_spec Pile4_proof Pile4b_proof Pile4c_proof Pile5_model Pile5_spec.
From Verif Require Lines_model Polygon_spec Surface2_spec Surface2_proof.
From Verif Require Import MMerge_spec MMerge_proof Gather_proof.
From Coq Require Import Lra Permutation.
Import Lines_model(lmesh, l_pts, l_cells, l_pd, l_cd, mkL).
Open Scope nat_scope.

(* ---- cells of one mesh ---- *)
Lemma mixed_decode (ty : list nat -> nat) (cells : list (list nat)) : (forall c, ty c <> 42) ->
  decode (map ty cells) (flat_map (fun c => length c :: c) cells) = Some (map (fun c => Plain (ty c) c) cells).
Proof.
  intros H. induction cells as [|c cells IH]; [reflexivity|]. cbn [map flat_map decode app].
  assert (L : length (c ++ flat_map (fun c => length c :: c) cells) <? length c = false) by (apply Nat.ltb_ge; rewrite app_length; lia). rewrite L.
  rewrite firstn_app, Nat.sub_diag, firstn_all, skipn_app, Nat.sub_diag, skipn_all. cbn [firstn skipn]. rewrite app_nil_r. cbn [app]. rewrite IH.
  unfold decode_cell. specialize (H c). apply Nat.eqb_neq in H. rewrite H. reflexivity.
Qed.

Definition shape_of (ty : nat) (ids : list nat) : Prop := ty = 5 /\ length ids = 3 \/ ty = 9 /\ length ids = 4.

(* the cells of b are these polygons *)
Definition pictures {D} (b : uvol D) (polys : list (list (R * R * R))) : Prop :=
  exists cells, cells_of b cells /\ Forall2 (fun cell poly => exists ty ids, cell = Plain ty ids /\ shape_of ty ids /\
    Forall2 (fun v p => nth_error (uv_pts b) v = Some p) ids poly) cells polys.

Lemma pictured {D} (b : uvol D) (P : list pt) (idss : list (list nat)) ty : uv_pts b = P -> uv_stream b = flat_map (fun c => length c :: c) idss -> uv_types b = map ty idss ->
  (forall c, ty c <> 42) -> (forall ids, In ids idss -> shape_of (ty ids) ids /\ forall v, In v ids -> v < length P) ->
  pictures b (map (map (fun v => nth v P origin)) idss).
Proof.
  intros <- E1 E2 H42 H. exists (map (fun c => Plain (ty c) c) idss). unfold cells_of. rewrite E1, E2. split; [now apply mixed_decode|].
  clear E1 E2. induction idss as [|ids idss IH]; cbn [map]; constructor.
  - exists (ty ids), ids. destruct (H ids (or_introl eq_refl)) as [H1 H2]. split; [reflexivity|]. split; [exact H1|].
    clear - H2. induction ids as [|v ids IH]; cbn [map]; constructor; [apply nth_error_nth', H2; left; reflexivity|apply IH; intros; apply H2; right; auto].
  - apply IH. intros x Hx. apply H. right. exact Hx.
Qed.

Lemma flat_map_ext' {A B} (f g : A -> list B) l : (forall x, In x l -> f x = g x) -> flat_map f l = flat_map g l.
Proof. induction l as [|x l IH]; intros H; cbn; [reflexivity|]. rewrite H, IH; auto; [|left; reflexivity]. intros; apply H; right; auto. Qed.

(* ---- strips ---- *)
Lemma plane_quads_length a b : length (plane_quads a b) = (b - 1) * (a - 1).
Proof.
  unfold plane_quads. rewrite (flat_map_seq_length _ _ _ (a - 1)); [reflexivity|]. intros k _. now rewrite map_length, seq_length.
Qed.
Lemma plane_quads_nth a b i j : i < a - 1 -> j < b - 1 ->
  nth_error (plane_quads a b) (i + (a - 1) * j) = Some [i + a * j; S i + a * j; S i + a * S j; i + a * S j].
Proof.
  intros Hi Hj. unfold plane_quads. replace (i + (a - 1) * j) with (j * (a - 1) + i) by lia.
  rewrite (flat_map_seq_nth _ _ _ (a - 1)); [|intros k _; now rewrite map_length, seq_length|exact Hj|exact Hi].
  rewrite nth_error_map, nth_error_seq_lt by exact Hi. cbn [option_map Nat.add]. reflexivity.
Qed.
Lemma plane_quads_In a b ids : In ids (plane_quads a b) -> length ids = 4 /\ forall v, In v ids -> v < a * b.
Proof.
  unfold plane_quads. intros H. apply in_flat_map in H as (j & Hj & H). apply in_map_iff in H as (i & <- & Hi). apply in_seq in Hj, Hi.
  split; [reflexivity|]. intros v [<-|[<-|[<-|[<-|[]]]]]; nia.
Qed.

Section Cast.
Context {D : Type}.

Lemma cast_strip ax call la lb ns (s : sgrid D) : ax <= 2 -> strip_between ax call la lb ns s ->
  exists polys, strip_polygons ax call la lb ns polys /\ pictures (cast_block (BGrid s)) polys /\ length (uv_types (cast_block (BGrid s))) = ns * (length la - 1).
Proof.
  intros Hax (perc & Hp & -> & Hd & HL & HN).
  set (n := length la) in *. set (m := length perc) in *.
  assert (HQ : exists a b, plane_quads (fst (plane_dims (sg_dims s))) (snd (plane_dims (sg_dims s))) = plane_quads a b /\
    (ax = 0 -> a = m /\ b = n) /\ (ax <> 0 -> a = n /\ b = m)).
  { rewrite Hd. destruct ax as [|[|[|]]]; cbn [strip_dims plane_dims]; try lia.
    - exists m, n. cbn. repeat split; auto; lia.
    - exists n, m. cbn. repeat split; auto; lia.
    - exists n, m. split; [|split; [lia|auto]]. destruct (m =? 1) eqn:E; cbn; [|reflexivity]. apply Nat.eqb_eq in E. rewrite E. reflexivity. }
  destruct HQ as (a & b & EQ & Q0 & Q1).
  assert (Eab : a * b = n * m) by (destruct (Nat.eq_dec ax 0) as [E|E]; [destruct (Q0 E)|destruct (Q1 E)]; subst; lia).
  assert (Lq : length (plane_quads a b) = (m - 1) * (n - 1)).
  { rewrite plane_quads_length. destruct (Nat.eq_dec ax 0) as [E|E]; [destruct (Q0 E)|destruct (Q1 E)]; subst; lia. }
  exists (map (map (fun v => nth v (sg_pts s) origin)) (plane_quads a b)). split; [|split].
  - exists perc. split; [exact Hp|]. split; [reflexivity|]. fold n m. split; [rewrite map_length; exact Lq|].
    intros u l p p' q q' t t' E1 E2 E3 E4 E5 E6.
    assert (U : S u < n) by (apply nth_error_Some; congruence). assert (L : S l < m) by (apply nth_error_Some; congruence).
    rewrite nth_error_map.
    assert (HV : forall i k p q t, nth_error la i = Some p -> nth_error lb i = Some q -> nth_error perc k = Some t ->
      nth (fidx (strip_dims ax n m) (node_at ax i k)) (sg_pts s) origin = on_way t p q).
    { intros i k p0 q0 t0 H1 H2 H3. apply nth_error_nth. rewrite <- Hd. exact (HN i k p0 q0 t0 H1 H2 H3). }
    pose proof (HV u l p q t E1 E3 E5) as V1. pose proof (HV u (S l) p q t' E1 E3 E6) as V2.
    pose proof (HV (S u) l p' q' t E2 E4 E5) as V3. pose proof (HV (S u) (S l) p' q' t' E2 E4 E6) as V4. clear HV HN.
    destruct ax as [|ax].
    + destruct (Q0 eq_refl) as [-> ->]. cbn [strip_rank]. rewrite plane_quads_nth by lia. cbn [option_map map]. cbn [strip_dims node_at fidx] in V1, V2, V3, V4.
      rewrite <- V1, <- V2, <- V3, <- V4. do 2 f_equal; [f_equal; nia|]. f_equal; [f_equal; nia|]. f_equal; [f_equal; nia|]. f_equal. f_equal; nia.
    + destruct (Q1 ltac:(lia)) as [-> ->]. cbn [strip_rank]. rewrite plane_quads_nth by lia. cbn [option_map map].
      rewrite <- V1, <- V2, <- V3, <- V4. destruct ax as [|[|]]; try lia; cbn [strip_dims node_at fidx];
        (do 2 f_equal; [f_equal; nia|]; f_equal; [f_equal; nia|]; f_equal; [f_equal; nia|]; f_equal; f_equal; nia).
  - unfold cast_block. rewrite EQ. apply (pictured _ (sg_pts s) (plane_quads a b) (fun _ => 9)); cbn [uv_stream uv_types uv_pts]; try discriminate; [reflexivity| |reflexivity|].
    + apply flat_map_ext'. intros ids H. apply plane_quads_In in H as [-> _]. reflexivity.
    + intros ids H. apply plane_quads_In in H as [H1 H2]. split; [right; auto|]. rewrite HL. fold n m. rewrite <- Eab. exact H2.
  - unfold cast_block. rewrite EQ. cbn [uv_types]. rewrite map_length. exact Lq.
Qed.

(* ---- meshes of gmsh ---- *)
Lemma read_cells (m : gmsh_mesh) pts cells : to_pyvista m = Ok (pts, cells) -> pts = map snd (fst m) /\
  forall el, In el (flat_map snd cells) -> exists ty els tags, In (ty, els) (snd m) /\ In tags els /\ (ty = 2 \/ ty = 3) /\
    el = map (fun t => (Z.of_nat t - 1)%Z) tags.
Proof.
  unfold to_pyvista. destruct (mapM _ _) as [cs|] eqn:E; [|discriminate]. cbn [bind]. intros [= <- <-]. split; [reflexivity|].
  revert cs E. induction (snd m) as [|[ty els] l IH]; intros cs E el Hin.
  { cbn in E. injection E as <-. destruct Hin. }
  cbn [filter fst] in E.
  assert (Hrest : forall c0 : list (nat * list (list Z)), (forall el, In el (flat_map snd c0) -> exists ty els tags, In (ty, els) l /\ In tags els /\ (ty = 2 \/ ty = 3) /\ el = map (fun t => (Z.of_nat t - 1)%Z) tags) ->
    In el (flat_map snd c0) -> exists ty0 els0 tags, In (ty0, els0) ((ty, els) :: l) /\ In tags els0 /\ (ty0 = 2 \/ ty0 = 3) /\ el = map (fun t => (Z.of_nat t - 1)%Z) tags).
  { intros c0 H H'. destruct (H el H') as (a & b & c & X & Y). exists a, b, c. split; [right; exact X|exact Y]. }
  destruct (negb _) eqn:En.
  - cbn [mapM] in E. destruct (match fst (ty, els) with 2 => _ | _ => _ end) as [x|] eqn:Ex; [|discriminate]. cbn [bind] in E.
    destruct (mapM _ _) as [cs'|] eqn:E' in E; [|discriminate]. cbn [bind] in E. injection E as <-. cbn [flat_map] in Hin. apply in_app_or in Hin as [Hin|Hin].
    + cbn [fst snd] in Ex. exists ty, els. destruct ty as [|[|[|[|]]]]; try discriminate; injection Ex as <-; cbn [snd] in Hin;
        apply in_map_iff in Hin as (tags & <- & Ht); exists tags; (split; [left; reflexivity|]); (split; [exact Ht|]); auto.
    + apply (Hrest cs'); [|exact Hin]. intros el0. exact (IH cs' E' el0).
  - apply (Hrest cs); [|exact Hin]. intros el0. exact (IH cs E el0).
Qed.

Lemma cast_tri (result : list gop -> gmsh_mesh) s pts cells cd : gmsh_elements result -> to_pyvista (result s) = Ok (pts, cells) ->
  exists polys, Forall2 (Forall2 (fun z p => (0 <= z)%Z /\ nth_error pts (Z.to_nat z) = Some p)) (flat_map snd cells) polys /\
    pictures (cast_block (BTri (D := D) pts (flat_map snd cells) cd)) polys /\
    length (uv_types (cast_block (BTri (D := D) pts (flat_map snd cells) cd))) = length (flat_map snd cells).
Proof.
  intros HG H. apply read_cells in H as [-> HC]. set (tris := flat_map snd cells) in *. set (pts := map snd (fst (result s))) in *.
  assert (HT : forall el, In el tris -> (length el = 3 \/ length el = 4) /\ forall z, In z el -> (0 <= z)%Z /\ Z.to_nat z < length pts).
  { intros el Hin. destruct (HC el Hin) as (ty & els & tags & H1 & H2 & H3 & ->). destruct (HG s ty els tags H1 H2) as (G1 & G2 & G3). rewrite map_length. split.
    - destruct H3; auto.
    - intros z Hz. apply in_map_iff in Hz as (tag & <- & Ht). specialize (G3 H3 tag Ht). unfold pts. rewrite map_length. lia. }
  exists (map (map (fun v => nth v pts origin)) (map (map Z.to_nat) tris)). split; [|split].
  - clear - HT. induction tris as [|el tris IH]; cbn [map]; constructor; [|apply IH; intros; apply HT; right; auto].
    destruct (HT el (or_introl eq_refl)) as [_ Hz]. clear - Hz. induction el as [|z el IH]; cbn [map]; constructor; [|apply IH; intros; apply Hz; right; auto].
    destruct (Hz z (or_introl eq_refl)). split; [auto|]. now apply nth_error_nth'.
  - apply (pictured _ pts (map (map Z.to_nat) tris) (fun c => if length c =? 3 then 5 else 9)); cbn [cast_block uv_stream uv_types uv_pts].
    + reflexivity.
    + rewrite !flat_map_concat_map, map_map. f_equal. apply map_ext. intros c. now rewrite map_length.
    + rewrite map_map. apply map_ext. intros c. now rewrite map_length.
    + intros c. destruct (_ =? 3); discriminate.
    + intros ids Hin. apply in_map_iff in Hin as (el & <- & Hel). destruct (HT el Hel) as [Hl Hz]. split.
      * unfold shape_of. rewrite map_length. destruct Hl as [E|E]; rewrite E; cbn; auto.
      * intros v Hv. apply in_map_iff in Hv as (z & <- & Hv). now apply Hz.
  - cbn [cast_block uv_types]. now rewrite map_length.
Qed.
End Cast.

Lemma gbind_ok {A B} (m : Polygon_model.gm A) (f : A -> Polygon_model.gm B) t t' y : gbind m f t = (t', Ok y) -> exists t1 x, m t = (t1, Ok x) /\ f x t1 = (t', Ok y).
Proof. unfold gbind. destruct (m t) as [t1 [x|]]; [|discriminate]. eauto. Qed.
