From Verif Require Import Perc_spec Perc_proof Surface_spec Surface_proof Volume_model Volume_spec Ring_proof.
Open Scope nat_scope.

Ltac leq := repeat (apply (f_equal2 (@cons nat)); [lia|]); reflexivity.

Lemma quad_inj {A B C D} (a a' : A) (b b' : B) (c c' : C) (d d' : D) :
  Ok (a, b, c, d) = Ok (a', b', c', d') -> a = a' /\ b = b' /\ c = c' /\ d = d'.
Proof. intros H; inversion H; auto. Qed.

Lemma shift_lift k np c : shift (k * np) c = lift k np c.
Proof. reflexivity. Qed.

Lemma shift_shift a b c : shift a (shift b c) = shift (b + a) c.
Proof. unfold shift; rewrite map_map; apply map_ext; intros; lia. Qed.

Lemma shift_length a c : length (shift a c) = length c.
Proof. apply map_length. Qed.

Lemma side_faces_edges np c :
  side_faces c (shift np c) = map (fun '(u, v) => [u + np; v + np; v; u]) (ring_edges c).
Proof.
  destruct c as [|x l]; [reflexivity|].
  unfold side_faces. rewrite ring_edges_combine.
  assert (roll_left (shift np (x :: l)) = shift np (roll_left (x :: l))) as ->
    by (simpl; unfold shift; rewrite map_app; reflexivity).
  unfold roll_left. generalize (x :: l) (l ++ [x]).
  intros a; induction a as [|y a IH]; intros [|z b]; try reflexivity.
  simpl. f_equal. apply IH.
Qed.

(* the faces of layer i made from the ring c *)
Definition prism (invert : bool) (np i : nat) (c : list nat) : list (list nat) :=
  lift i np c
  :: (if invert then rev (lift (S i) np c) else lift (S i) np c)
  :: map (fun '(u, v) => [u + S i * np; v + S i * np; v + i * np; u + i * np]) (ring_edges c).

Lemma prism_shift (invert : bool) np i c :
  map (shift (i * np)) (c :: (if invert then rev (shift np c) else shift np c)
                          :: side_faces c (shift np c)) = prism invert np i c.
Proof.
  unfold prism. cbn [map]. f_equal. f_equal.
  - assert (shift (i * np) (shift np c) = lift (S i) np c) as E.
    { rewrite shift_shift. unfold lift, shift. apply map_ext; intros; lia. }
    destruct invert; [|exact E]. rewrite <- E. unfold shift. rewrite map_rev. reflexivity.
  - rewrite side_faces_edges, map_map. apply map_ext. intros [u v]. unfold shift; cbn [map].
    leq.
Qed.

Lemma poly_stream_eq np i fs :
  poly_stream np i fs =
  let body := flat_map (fun f => length f :: f) (map (shift (i * np)) fs) in
  (length body + 1) :: length (map (shift (i * np)) fs) :: body.
Proof.
  unfold poly_stream; cbv zeta.
  assert (flat_map (fun f => length f :: shift (i * np) f) fs =
          flat_map (fun f => length f :: f) (map (shift (i * np)) fs)) as ->.
  { induction fs as [|f fs IH]; simpl; auto. rewrite shift_length. do 2 f_equal; auto. }
  rewrite map_length. reflexivity.
Qed.

Lemma polyhedron_faces_ring invert np points cell c fs :
  polyhedron_faces invert np points cell = Ok (c, fs) ->
  (c = cell \/ (invert = true /\ c = rev cell)) /\
  fs = c :: (if invert then rev (shift np c) else shift np c) :: side_faces c (shift np c).
Proof.
  unfold polyhedron_faces. destruct invert.
  - destruct cell as [|i0 [|i1 [|i2 cell]]]; try discriminate.
    destruct (Rleb 0 _); unfold bind; intros H%Ok_inj; injection H as <- <-; auto.
  - unfold bind; intros H%Ok_inj; injection H as <- <-; auto.
Qed.

Lemma extrude_cell_spec invert np points tc ty s col c' :
  extrude_cell invert np points tc = Ok (ty, s, col, c') ->
  (fst tc <> 7 -> c' = snd tc) /\
  (fst tc = 7 -> polyhedron_faces invert np points (snd tc) =
     Ok (c', c' :: (if invert then rev (shift np c') else shift np c') :: side_faces c' (shift np c'))) /\
  forall i, exists cell, decode [ty] (s i) = Some [cell] /\ extruded invert np i tc cell /\
    (fst tc = 7 -> cell = Poly (prism invert np i c')).
Proof.
  destruct tc as [ct cell]; unfold extrude_cell, extruded_celltype.
  assert (forall t cell, t <> 42 -> forall i,
    decode [t] (plain_stream np i (cell ++ shift np cell)) =
    Some [Plain t (lift i np cell ++ lift (S i) np cell)]) as Hplain.
  { clear. intros t cell Ht i. unfold plain_stream. rewrite <- (shift_length (i * np) (cell ++ shift np cell)).
    rewrite decode_plain by auto. do 3 f_equal.
    unfold shift. rewrite map_app. f_equal. rewrite map_map. unfold lift.
    apply map_ext; intros; lia. }
  destruct (Nat.eqb_spec ct PIXEL) as [->|N1].
  { cbn -[all_close plain_stream shift app]. destruct cell as [|a [|b [|c [|d [|]]]]]; try discriminate.
    cbn -[all_close plain_stream shift app]. intros (<- & <- & <- & <-)%quad_inj.
    split; [auto|]. split; [discriminate|]. intros i.
    eexists; split; [|split; [apply ext_pixel|discriminate]]. apply Hplain; lia. }
  destruct (Nat.eqb_spec ct POLYGON) as [->|N2].
  { cbn [POLYHEDRON VOXEL Nat.eqb]. unfold bind at 1.
    destruct (polyhedron_faces invert np points cell) as [[c fs]|] eqn:Hp; unfold bind; [|discriminate].
    intros (<- & <- & <- & <-)%quad_inj.
    pose proof Hp as Hp'. apply polyhedron_faces_ring in Hp'. destruct Hp' as [Hc ->].
    split; [intros []; reflexivity|]. split; [intros _; exact Hp|]. intros i.
    eexists; split; [|split; [apply (ext_polygon invert np i cell c); tauto|reflexivity]].
    rewrite poly_stream_eq, prism_shift. apply decode_poly. }
  destruct (Nat.eqb_spec ct QUAD) as [->|N3].
  { cbn -[all_close plain_stream shift]. intros (<- & <- & <- & <-)%quad_inj.
    split; [auto|]. split; [discriminate|]. intros i.
    eexists; split; [|split; [apply ext_quad|discriminate]]. apply Hplain; lia. }
  destruct (Nat.eqb_spec ct TRIANGLE) as [->|N4]; [|discriminate].
  cbn -[all_close plain_stream shift]. intros (<- & <- & <- & <-)%quad_inj.
  split; [auto|]. split; [discriminate|]. intros i.
  eexists; split; [|split; [apply ext_triangle|discriminate]]. apply Hplain; lia.
Qed.

Definition ec_type (e : nat * (nat -> list nat) * bool * list nat) := let '(t, _, _, _) := e in t.
Definition ec_stream (e : nat * (nat -> list nat) * bool * list nat) (i : nat) := let '(_, s, _, _) := e in s i.
Definition ec_col (e : nat * (nat -> list nat) * bool * list nat) := let '(_, _, c, _) := e in c.

Notation ecell := (nat * (nat -> list nat) * bool * list nat)%type.
Definition ec_decodes (i : nat) (e : ecell) (cell : vcell) : Prop :=
  decode [ec_type e] (ec_stream e i) = Some [cell].

Lemma layer_decode (ecs : list ecell) i :
  (forall e, In e ecs -> exists cell, ec_decodes i e cell) ->
  exists cs, decode (map ec_type ecs) (flat_map (fun e => ec_stream e i) ecs) = Some cs /\
             Forall2 (ec_decodes i) ecs cs.
Proof.
  induction ecs as [|e ecs IH]; intros H; [exists []; split; [reflexivity|constructor]|].
  destruct IH as (cs & Hcs & HFcs); [intros; apply H; right; auto|].
  destruct (H e ltac:(left; auto)) as (cell & Hd).
  exists (cell :: cs). split; [|constructor; auto].
  cbn [map flat_map]. change (ec_type e :: map ec_type ecs) with ([ec_type e] ++ map ec_type ecs).
  rewrite (decode_app _ _ _ _ _ Hd), Hcs. reflexivity.
Qed.

Lemma layers_decode (ecs : list ecell) n s :
  (forall i e, In e ecs -> exists cell, ec_decodes i e cell) ->
  exists cs, decode (tile (map ec_type ecs) n)
               (flat_map (fun i => flat_map (fun e => ec_stream e i) ecs) (seq s n)) = Some cs /\
    length cs = n * length ecs /\
    forall l c e, l < n -> nth_error ecs c = Some e ->
      exists cell, nth_error cs (l * length ecs + c) = Some cell /\ ec_decodes (s + l) e cell.
Proof.
  intros HF. revert s; induction n as [|n IH]; intros s.
  - exists []; repeat split; auto; intros; lia.
  - destruct (IH (S s)) as (cs & Hcs & Hlen & Hat).
    destruct (layer_decode ecs s (HF s)) as (cl & Hcl & HFcl).
    exists (cl ++ cs). cbn [tile seq flat_map].
    rewrite (decode_app _ _ _ _ _ Hcl), Hcs.
    pose proof (Forall2_len _ _ _ HFcl) as Hl.
    split; [reflexivity|]. split; [rewrite app_length; simpl; lia|].
    intros l c e Hlt Hc. assert (c < length ecs) by (apply nth_error_Some; congruence).
    destruct l as [|l].
    + destruct (Forall2_nth_error _ _ _ _ _ HFcl Hc) as (cell & Hcell & He).
      exists cell. rewrite nth_error_app1 by (simpl; lia). rewrite Nat.add_0_r; auto.
    + destruct (Hat l c e ltac:(lia) Hc) as (cell & Hcell & He).
      exists cell. rewrite nth_error_app2 by (simpl; lia).
      replace (S l * length ecs + c - length cl) with (l * length ecs + c) by (simpl; lia).
      replace (s + S l) with (S s + l) by lia. auto.
Qed.

Lemma combine_eqb (l m : list nat) : length l = length m -> (forallb (fun p => fst p =? snd p) (combine l m) = true <-> l = m).
Proof.
  revert m. induction l as [|a l IH]; intros [|b m] H; cbn [combine forallb fst snd] in *; try discriminate; [tauto|].
  rewrite andb_true_iff, Nat.eqb_eq, IH by (cbn in H; lia). split; [intros [-> ->]; auto|intros E; injection E; auto].
Qed.
Lemma forallb_eqb a (l : list nat) : forallb (Nat.eqb a) l = true <-> Forall (eq a) l.
Proof. rewrite forallb_forall, Forall_forall. split; intros H x Hx; apply Nat.eqb_eq, H, Hx. Qed.

Lemma types_close_spec ta tb : types_close ta tb = true <-> types_agree ta tb.
Proof.
  unfold types_agree. destruct ta as [|a [|a' ta]].
  - destruct tb as [|b [|b' tb]]; cbn.
    + split; auto.
    + split; [|auto]. intros _. right. right. exists b. auto.
    + split; [discriminate|]. intros [H|[(t & H & _)|(t & H & _)]]; discriminate.
  - cbn [types_close]. rewrite forallb_eqb. split.
    + intros H. right. left. exists a. auto.
    + intros [<-|[(t & [= <-] & H)|(t & -> & H)]]; auto. inversion H; subst. repeat constructor.
  - destruct tb as [|b [|b' tb]].
    + cbn. split; [discriminate|]. intros [H|[(t & H & _)|(t & H & _)]]; discriminate.
    + cbn [types_close]. rewrite forallb_eqb. split.
      * intros H. right. right. exists b. auto.
      * intros [H|[(t & H & _)|(t & [= <-] & H)]]; try discriminate. auto.
    + cbn [types_close]. rewrite andb_true_iff, Nat.eqb_eq. split.
      * intros [HL H]. left. now apply combine_eqb in H.
      * intros [<-|[(t & H & _)|(t & H & _)]]; try discriminate. split; [auto|]. now apply combine_eqb.
Qed.

Lemma uvol_inv {D} (sa sb : usurf D) r m invert v :
  generate_volume_unstructured sa sb r m invert = Ok v ->
  length (us_pts sa) = length (us_pts sb) /\
  types_agree (map fst (us_cells sa)) (map fst (us_cells sb)) /\
  exists perc ecs, resolution_to_perc r m = Ok perc /\ 2 <= length perc /\
    uv_pts v = flat_map (fun t => map2 (lerp t) (us_pts sa) (us_pts sb)) perc /\
    Forall2 (fun x y => extrude_cell invert (length (us_pts sa)) (uv_pts v) x = Ok y) (us_cells sa) ecs /\
    uv_stream v = flat_map (fun i => flat_map (fun e => ec_stream e i) ecs) (seq 0 (length perc - 1)) /\
    uv_types v = tile (map ec_type ecs) (length perc - 1) /\
    uv_pd v = map (fun kv => (fst kv, tile (snd kv) (length perc))) (us_pd sa) /\
    uv_cd v = map (fun kv => (fst kv, tile (snd kv) (length perc - 1))) (us_cd sa) /\
    (forall k x, In (k, x) (us_pd sa) -> length (tile x (length perc)) = length (uv_pts v)) /\
    (forall k x, In (k, x) (us_cd sa) ->
       length (tile x (length perc - 1)) = length (us_cells sa) * (length perc - 1)) /\
    (exists gh, length gh = length (us_cells sa) * (length perc - 1) /\
       gh = match us_ghost sa with Some g => tile g (length perc - 1) | None => repeat 0 (length (us_cells sa) * (length perc - 1)) end /\
       uv_ghost v = mask_set 32 (tile (map ec_col ecs) (length perc - 1)) gh) /\
    uv_input_cells v = map2 (fun tc ec => (fst tc, snd ec)) (us_cells sa) ecs.
Proof.
  unfold generate_volume_unstructured.
  destruct (Nat.eqb_spec (length (us_pts sa)) (length (us_pts sb))) as [Hl|]; [|discriminate]. cbn [negb].
  destruct (negb (forallb _ (us_cells sa))); [discriminate|].
  destruct (types_close (map fst (us_cells sa)) (map fst (us_cells sb))) eqn:Hty; [|discriminate]. cbn [negb].
  destruct (resolution_to_perc r m) as [perc|] eqn:Hp; [|discriminate]. unfold bind at 1.
  destruct (Nat.eqb_spec (length perc - 1) 0) as [|Hn]; [discriminate|].
  unfold bind at 1. destruct (mapM _ (us_cells sa)) as [ecs|] eqn:Hec; [|discriminate].
  unfold bind at 1. destruct (mapM _ (us_pd sa)) as [pd|] eqn:Hpd; [|discriminate].
  unfold bind at 1. destruct (mapM _ (us_cd sa)) as [cd|] eqn:Hcd; [|discriminate].
  unfold bind at 1.
  match goal with |- match ?x with _ => _ end = _ -> _ => destruct x as [gh|] eqn:Hgh; [|discriminate] end.
  intros H%Ok_inj; subst v; cbn [uv_pts uv_stream uv_types uv_pd uv_cd uv_ghost uv_input_cells].
  apply (mapM_assoc (fun v => tile v (length perc))) in Hpd.
  apply (mapM_assoc (fun v => tile v (length perc - 1))) in Hcd.
  destruct Hpd as [-> Hpd], Hcd as [-> Hcd]. apply mapM_Ok in Hec.
  split; auto. split.
  { now apply types_close_spec. }
  exists perc, ecs. do 4 (split; [auto; lia|]).
  split; [reflexivity|]. split; [reflexivity|]. do 4 (split; [auto|]).
  split; [|reflexivity].
  exists gh. split; [|split; [|reflexivity]].
  - destruct (us_ghost sa) as [g|].
    + destruct (Nat.eqb_spec (length (tile g (length perc - 1)))
                  (length (us_cells sa) * (length perc - 1))) as [E|]; [|discriminate]. injection Hgh as <-; auto.
    + injection Hgh as <-; apply repeat_length.
  - destruct (us_ghost sa) as [g|].
    + destruct (_ =? _); [|discriminate]. injection Hgh as <-; auto.
    + injection Hgh as <-; auto.
Qed.

Lemma layer_points {D} (sa sb : usurf D) perc l i t p q :
  length (us_pts sa) = length (us_pts sb) ->
  nth_error perc l = Some t -> nth_error (us_pts sa) i = Some p -> nth_error (us_pts sb) i = Some q ->
  nth_error (flat_map (fun t => map2 (lerp t) (us_pts sa) (us_pts sb)) perc)
            (l * length (us_pts sa) + i) = Some (lerp t p q).
Proof.
  intros Hl Ht Hp Hq.
  erewrite (flat_map_const_nth _ _ (length (us_pts sa))); eauto.
  - rewrite map2_nth_error, Hp, Hq; auto.
  - intros; rewrite map2_length; lia.
  - apply nth_error_Some; congruence.
Qed.

Lemma layer_points_length {D} (sa sb : usurf D) perc :
  length (us_pts sa) = length (us_pts sb) ->
  length (flat_map (fun t => map2 (lerp t) (us_pts sa) (us_pts sb)) perc)
  = length perc * length (us_pts sa).
Proof. intros Hl; apply flat_map_const_length. intros; rewrite map2_length; lia. Qed.

(* ids of an extruded cell stay in range *)
Lemma lift_In k np ids x : In x (lift k np ids) -> exists y, In y ids /\ x = y + k * np.
Proof. unfold lift; rewrite in_map_iff; intros (y & <- & Hy); eauto. Qed.

Lemma extruded_range invert np l base cell :
  extruded invert np l base cell -> (forall x, In x (snd base) -> x < np) ->
  forall y, In y (vcell_ids cell) -> y < (l + 2) * np.
Proof.
  intros H Hb.
  assert (forall k ids y, (forall x, In x ids -> x < np) -> k <= S l ->
            In y (lift k np ids) -> y < (l + 2) * np) as HL.
  { intros k ids y Hids Hk Hy. apply lift_In in Hy as (x & Hx & ->). apply Hids in Hx. nia. }
  destruct H as [ids|ids|a b c d|ids ring Hring]; cbn [snd vcell_ids] in *; intros y Hy.
  - apply in_app_iff in Hy as [Hy|Hy]; eapply HL in Hy; eauto; lia.
  - apply in_app_iff in Hy as [Hy|Hy]; eapply HL in Hy; eauto; lia.
  - assert (forall x, In x [a; b; d; c] -> x < np) as Hb'
        by (intros x Hx; apply Hb; simpl in *; tauto).
    apply in_app_iff in Hy as [Hy|Hy]; eapply HL in Hy; eauto; lia.
  - assert (forall x, In x ring -> x < np) as Hr.
    { intros x Hx. apply Hb. destruct Hring as [->|[_ ->]]; auto. apply in_rev; auto. }
    cbn [concat] in Hy. apply in_app_iff in Hy as [Hy|Hy]; [eapply HL in Hy; eauto; lia|].
    apply in_app_iff in Hy as [Hy|Hy].
    + assert (In y (lift (S l) np ring)) as Hy' by (destruct invert; auto; apply in_rev; auto).
      eapply HL in Hy'; eauto; lia.
    + apply in_concat in Hy as (f & Hf & Hy). apply in_map_iff in Hf as ((u & v) & <- & Huv).
      apply ring_edges_in in Huv as [Hu Hv]. apply Hr in Hu; apply Hr in Hv.
      simpl in Hy. destruct Hy as [<-|[<-|[<-|[<-|[]]]]]; nia.
Qed.

(* C11 *)
Lemma uvol_cells {D} (sa sb : usurf D) r m invert v :
  generate_volume_unstructured sa sb r m invert = Ok v ->
  exists perc cells,
    resolution_to_perc r m = Ok perc /\ 2 <= length perc /\
    decode (uv_types v) (uv_stream v) = Some cells /\
    length cells = (length perc - 1) * length (us_cells sa) /\
    length (uv_pts v) = length perc * length (us_pts sa) /\
    (forall l i t p q, nth_error perc l = Some t -> nth_error (us_pts sa) i = Some p ->
       nth_error (us_pts sb) i = Some q ->
       nth_error (uv_pts v) (l * length (us_pts sa) + i) = Some (lerp t p q)) /\
    (forall l c base, l < length perc - 1 -> nth_error (us_cells sa) c = Some base ->
       exists cell, nth_error cells (l * length (us_cells sa) + c) = Some cell /\
         extruded invert (length (us_pts sa)) l base cell /\
         ((forall x, In x (snd base) -> x < length (us_pts sa)) ->
          forall y, In y (vcell_ids cell) -> y < length (uv_pts v)) /\
         exists ring, nth_error (uv_input_cells v) c = Some (fst base, ring) /\
           (fst base <> 7 -> ring = snd base) /\
           (fst base = 7 ->
             cell = Poly (prism invert (length (us_pts sa)) l ring) /\
             polyhedron_faces invert (length (us_pts sa)) (uv_pts v) (snd base) =
               Ok (ring, ring :: (if invert then rev (shift (length (us_pts sa)) ring)
                                  else shift (length (us_pts sa)) ring)
                         :: side_faces ring (shift (length (us_pts sa)) ring)))).
Proof.
  intros H; apply uvol_inv in H.
  destruct H as (Hl & Hty & perc & ecs & Hp & Hn & Hpts & HF & Hs & Ht & Hin).
  assert (length (uv_pts v) = length perc * length (us_pts sa)) as Hpl
    by (rewrite Hpts; apply layer_points_length; auto).
  pose proof (Forall2_len _ _ _ HF) as Hlen'.
  assert (forall i e, In e ecs -> exists cell, ec_decodes i e cell) as Hdec.
  { intros i e He. destruct (In_nth_error _ _ He) as (k & Hk).
    destruct (nth_error (us_cells sa) k) as [tc|] eqn:Htc;
      [|apply nth_error_None in Htc; assert (k < length ecs) by (apply nth_error_Some; congruence); lia].
    destruct (Forall2_nth_error _ _ _ _ _ HF Htc) as (e' & He' & Hx). assert (e' = e) as -> by congruence.
    destruct e as [[[ty s] col] c']. destruct (extrude_cell_spec _ _ _ _ _ _ _ _ Hx) as (_ & _ & Hy).
    destruct (Hy i) as (cell & Hd & _). exists cell; exact Hd. }
  destruct (layers_decode ecs (length perc - 1) 0 Hdec) as (cs & Hcs & Hlen & Hat).
  exists perc, cs. rewrite Ht, Hs, Hlen'.
  do 5 (split; [auto|]). split.
  - intros l i t p q Ht' Hp' Hq. rewrite Hpts. eapply layer_points; eauto.
  - intros l c base Hlt Hc.
    destruct (Forall2_nth_error _ _ _ _ _ HF Hc) as (e & He & Hx).
    destruct (Hat l c e Hlt He) as (cell & Hcell & Hd). rewrite Nat.add_0_l in Hd.
    destruct e as [[[ty s] col] c']. destruct (extrude_cell_spec _ _ _ _ _ _ _ _ Hx) as (H7 & H7' & Hy).
    destruct (Hy l) as (cell' & Hd' & Hext & Hpoly).
    assert (cell' = cell) as -> by (unfold ec_decodes in Hd; cbn [ec_type ec_stream] in Hd; congruence).
    exists cell. split; [auto|]. split; [auto|]. split.
    + intros Hb y Hy'. eapply extruded_range in Hy'; eauto. rewrite Hpl. nia.
    + exists c'. split; [|auto].
      destruct Hin as (_ & _ & _ & _ & _ & Hin). rewrite Hin, map2_nth_error, Hc, He. reflexivity.
Qed.

Lemma uvol_unsupported {D} (sa sb : usurf D) r m invert ct ids :
  In (ct, ids) (us_cells sa) -> ~ In ct [5; 7; 8; 9] ->
  generate_volume_unstructured sa sb r m invert = Err ValueError.
Proof.
  intros HIn Hct; unfold generate_volume_unstructured.
  destruct (negb (length (us_pts sa) =? _)); [reflexivity|].
  match goal with |- context [forallb ?f (us_cells sa)] => destruct (forallb f (us_cells sa)) eqn:Hf end; [|reflexivity].
  exfalso. rewrite forallb_forall in Hf. specialize (Hf _ HIn). cbn [fst] in Hf.
  unfold extruded_celltype, PIXEL, POLYGON, QUAD, TRIANGLE in Hf. simpl in Hct.
  destruct (Nat.eqb_spec ct 8), (Nat.eqb_spec ct 7), (Nat.eqb_spec ct 9), (Nat.eqb_spec ct 5);
    try discriminate; apply Hct; lia.
Qed.

Lemma uvol_incompatible {D} (sa sb : usurf D) r m invert :
  length (us_pts sa) <> length (us_pts sb) \/ ~ types_agree (map fst (us_cells sa)) (map fst (us_cells sb)) ->
  generate_volume_unstructured sa sb r m invert = Err ValueError.
Proof.
  intros H. unfold generate_volume_unstructured.
  destruct (Nat.eqb_spec (length (us_pts sa)) (length (us_pts sb))) as [E|]; [|reflexivity]. cbn [negb].
  destruct (negb (forallb _ (us_cells sa))); [reflexivity|].
  destruct (types_close _ _) eqn:Ht; [|reflexivity]. apply types_close_spec in Ht. tauto.
Qed.

(* ------------------------------------------------------------------ *)
(* C12: closedness *)

Lemma count_occ_app' (l m : list (nat * nat)) e :
  count_occ edge_dec (l ++ m) e = count_occ edge_dec l e + count_occ edge_dec m e.
Proof. apply count_occ_app. Qed.

Definition c1 (x e : nat * nat) : nat := if edge_dec x e then 1 else 0.
Lemma count_cons' x l e : count_occ edge_dec (x :: l) e = c1 x e + count_occ edge_dec l e.
Proof. unfold c1; cbn [count_occ]; destruct (edge_dec x e); reflexivity. Qed.

(* permutations of concatenations, by counting *)
Ltac perm := apply (Permutation_count_occ edge_dec); intros ?e;
  repeat (rewrite ?count_cons', ?count_occ_app; cbn [app]); lia.

Lemma count_sw l (u v : nat) :
  count_occ edge_dec (map sw l) (u, v) = count_occ edge_dec l (v, u).
Proof.
  induction l as [|[a b] l IH]; [reflexivity|].
  change (map sw ((a, b) :: l)) with ((b, a) :: map sw l).
  cbn [count_occ]. rewrite IH.
  destruct (edge_dec (b, a) (u, v)) as [E|E], (edge_dec (a, b) (v, u)) as [E'|E'];
    try reflexivity; exfalso.
  - apply E'; inversion E; auto.
  - apply E; inversion E'; auto.
Qed.

Lemma NoDup_app_intro {A} (l m : list A) :
  NoDup l -> NoDup m -> (forall x, In x l -> In x m -> False) -> NoDup (l ++ m).
Proof.
  induction l as [|x l IH]; simpl; auto. intros Hl Hm Hd. inversion Hl; subst. constructor.
  - rewrite in_app_iff. intros [?|?]; [auto|eapply Hd; eauto].
  - apply IH; auto. intros; eapply Hd; eauto.
Qed.

Lemma map_sw_sw {A} (l : list (A * A)) : map sw (map sw l) = l.
Proof. rewrite map_map. rewrite <- (map_id l) at 2. apply map_ext; intros [? ?]; reflexivity. Qed.

(* half of the directed edges of a prism *)
Definition half (np i : nat) (c : list nat) : list (nat * nat) :=
  ring_edges (lift i np c) ++ ring_edges (lift (S i) np c) ++
  map (fun v => (v + i * np, v + S i * np)) c.

Lemma quad_edges {A} (a b c d : A) : ring_edges [a; b; c; d] = [(a, b); (b, c); (c, d); (d, a)].
Proof. reflexivity. Qed.

Lemma side_edges_perm np i (es : list (nat * nat)) :
  Permutation
    (flat_map ring_edges (map (fun '(u, v) => [u + S i * np; v + S i * np; v + i * np; u + i * np]) es))
    (map (fun e => (fst e + S i * np, snd e + S i * np)) es ++
     map sw (map (fun e => (fst e + i * np, snd e + i * np)) es) ++
     map (fun v => (v + S i * np, v + i * np)) (map snd es) ++
     map (fun v => (v + i * np, v + S i * np)) (map fst es)).
Proof.
  induction es as [|[u v] es IH]; [reflexivity|].
  cbn [map flat_map]. rewrite quad_edges. cbn [fst snd app sw].
  rewrite IH. clear IH. 
  set (A1 := map (fun e : nat * nat => (fst e + S i * np, snd e + S i * np)) es).
  set (A2 := map sw (map (fun e : nat * nat => (fst e + i * np, snd e + i * np)) es)).
  set (A3 := map (fun v => (v + S i * np, v + i * np)) (map snd es)).
  set (A4 := map (fun v => (v + i * np, v + S i * np)) (map fst es)).
  change (sw (u + i * np, v + i * np)) with (v + i * np, u + i * np). clearbody A1 A2 A3 A4. perm.
Qed.

Lemma lift_edges k np c :
  ring_edges (lift k np c) = map (fun e => (fst e + k * np, snd e + k * np)) (ring_edges c).
Proof. unfold lift. apply (ring_edges_map (fun v => v + k * np)). Qed.

Lemma prism_edges_perm np i c :
  Permutation (surface_edges (prism true np i c)) (half np i c ++ map sw (half np i c)).
Proof.
  unfold surface_edges, prism, half. cbn [flat_map].
  rewrite side_edges_perm, ring_edges_rev, !lift_edges, ring_edges_fst.
  rewrite ring_edges_snd_perm.
  rewrite !map_app.
  set (E0 := map (fun e : nat * nat => (fst e + i * np, snd e + i * np)) (ring_edges c)).
  set (E1 := map (fun e : nat * nat => (fst e + S i * np, snd e + S i * np)) (ring_edges c)).
  set (V := map (fun v => (v + i * np, v + S i * np)) c).
  assert (map (fun v => (v + S i * np, v + i * np)) c = map sw V) as ->
    by (unfold V; rewrite map_map; reflexivity).
  perm.
Qed.

Lemma prism_edges_false_perm np i c :
  Permutation (surface_edges (prism false np i c))
    (ring_edges (lift i np c) ++ map sw (ring_edges (lift i np c)) ++
     ring_edges (lift (S i) np c) ++ ring_edges (lift (S i) np c) ++
     map (fun v => (v + i * np, v + S i * np)) c ++
     map sw (map (fun v => (v + i * np, v + S i * np)) c)).
Proof.
  unfold surface_edges, prism. cbn [flat_map].
  rewrite side_edges_perm, !lift_edges, ring_edges_fst, ring_edges_snd_perm.
  set (E0 := map (fun e : nat * nat => (fst e + i * np, snd e + i * np)) (ring_edges c)).
  set (E1 := map (fun e : nat * nat => (fst e + S i * np, snd e + S i * np)) (ring_edges c)).
  set (V := map (fun v => (v + i * np, v + S i * np)) c).
  assert (map (fun v => (v + S i * np, v + i * np)) c = map sw V) as ->
    by (unfold V; rewrite map_map; reflexivity).
  perm.
Qed.

Section Prism.
Variables (np i : nat) (c : list nat).
Hypothesis Hc : NoDup c.
Hypothesis Hlen : 3 <= length c.
Hypothesis Hrange : forall x, In x c -> x < np.

Lemma lift_NoDup k : NoDup (lift k np c).
Proof. unfold lift. apply FinFun.Injective_map_NoDup; auto. intros x y; lia. Qed.

Lemma lift_range k x : In x (lift k np c) -> k * np <= x < S k * np.
Proof. intros H; apply lift_In in H as (y & Hy & ->). apply Hrange in Hy. lia. Qed.

Lemma edge_range k u v : In (u, v) (ring_edges (lift k np c)) ->
  k * np <= u < S k * np /\ k * np <= v < S k * np.
Proof. intros H; apply ring_edges_in in H as [Hu Hv]. split; apply lift_range; auto. Qed.

Lemma vert_range u v : In (u, v) (map (fun v => (v + i * np, v + S i * np)) c) ->
  i * np <= u < S i * np /\ v = u + np.
Proof. rewrite in_map_iff; intros (x & [= <- <-] & Hx). apply Hrange in Hx. lia. Qed.

Lemma vert_NoDup : NoDup (map (fun v => (v + i * np, v + S i * np)) c).
Proof. apply FinFun.Injective_map_NoDup; auto. intros x y [= H _]; lia. Qed.

Lemma half_NoDup : NoDup (half np i c).
Proof.
  unfold half. apply NoDup_app_intro; [apply ring_edges_NoDup, lift_NoDup| |].
  - apply NoDup_app_intro; [apply ring_edges_NoDup, lift_NoDup|apply vert_NoDup|].
    intros [u v] H1 H2. apply edge_range in H1; apply vert_range in H2. lia.
  - intros [u v] H1. rewrite in_app_iff; intros [H2|H2].
    + apply edge_range in H1; apply edge_range in H2; lia.
    + apply edge_range in H1; apply vert_range in H2; lia.
Qed.

Lemma half_asym u v : In (u, v) (half np i c) -> In (v, u) (half np i c) -> False.
Proof.
  assert (forall k a b, In (a, b) (ring_edges (lift k np c)) -> In (b, a) (ring_edges (lift k np c)) -> False) as HA.
  { intros k a b; apply ring_edges_asym; [apply lift_NoDup|unfold lift; rewrite map_length; auto]. }
  unfold half; rewrite !in_app_iff. intros [H1|[H1|H1]] [H2|[H2|H2]].
  - eapply HA; eauto.
  - apply edge_range in H1; apply edge_range in H2; lia.
  - apply edge_range in H1; apply vert_range in H2; lia.
  - apply edge_range in H1; apply edge_range in H2; lia.
  - eapply HA; eauto.
  - apply edge_range in H1; apply vert_range in H2; lia.
  - apply vert_range in H1; apply edge_range in H2; lia.
  - apply vert_range in H1; apply edge_range in H2; lia.
  - apply vert_range in H1; apply vert_range in H2; lia.
Qed.

Lemma half_counts u v :
  count_occ edge_dec (half np i c) (u, v) + count_occ edge_dec (half np i c) (v, u) <= 1.
Proof.
  pose proof (proj1 (NoDup_count_occ edge_dec _) half_NoDup) as H1.
  pose proof (H1 (u, v)) as Ha. pose proof (H1 (v, u)) as Hb.
  destruct (count_occ edge_dec (half np i c) (u, v)) as [|n] eqn:E1; [lia|].
  destruct (count_occ edge_dec (half np i c) (v, u)) as [|n'] eqn:E2; [lia|].
  exfalso. apply (half_asym u v); apply (count_occ_In edge_dec); lia.
Qed.

Lemma prism_closed_oriented : closed_oriented (prism true np i c).
Proof.
  intros u v. unfold edge_count.
  rewrite !(proj1 (Permutation_count_occ edge_dec _ _) (prism_edges_perm np i c)).
  rewrite !count_occ_app', !count_sw.
  pose proof (half_counts u v). lia.
Qed.

Lemma prism_closed_surface_true : closed_surface (prism true np i c).
Proof.
  intros u v. destruct (prism_closed_oriented u v) as [H1 H2].
  rewrite <- H2. lia.
Qed.

Lemma prism_closed_surface_false : closed_surface (prism false np i c).
Proof.
  intros u v. unfold edge_count.
  rewrite !(proj1 (Permutation_count_occ edge_dec _ _) (prism_edges_false_perm np i c)).
  rewrite !count_occ_app', !count_sw.
  pose proof (half_counts u v) as H. unfold half in H. rewrite !count_occ_app' in H.
  lia.
Qed.

End Prism.

Lemma extruded_polygon_closed invert np l ids cell :
  extruded invert np l (7, ids) cell -> NoDup ids -> 3 <= length ids ->
  (forall x, In x ids -> x < np) ->
  exists faces, cell = Poly faces /\ closed_surface faces /\
    (invert = true -> closed_oriented faces).
Proof.
  intros H Hnd Hlen Hr. inversion H as [| | |ids' ring Hring Eids Ecell]; subst.
  change (lift l np ring :: _ :: map _ _) with (prism invert np l ring).
  assert (NoDup ring /\ 3 <= length ring /\ forall x, In x ring -> x < np) as (R1 & R2 & R3).
  { destruct Hring as [->|[_ ->]]; [auto|].
    split; [apply NoDup_rev; auto|]. split; [rewrite rev_length; auto|].
    intros x Hx; apply Hr, in_rev; auto. }
  eexists; split; [reflexivity|]. destruct invert.
  - split; [apply prism_closed_surface_true; auto|]. intros _; apply prism_closed_oriented; auto.
  - split; [apply prism_closed_surface_false; auto|discriminate].
Qed.
