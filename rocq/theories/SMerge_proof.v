From Verif Require Import Perc_model Perc_spec Perc_proof Surface_model Surface_spec Surface_proof
  Volume_model Volume_spec Volume_proof Ring_proof UVol_proof UVol2_proof UVol3_proof
  SMerge_model SMerge_spec.
Open Scope nat_scope.

Lemma comp_setc ax v c : comp ax (setc ax v c) = v.
Proof. destruct c as [[? ?] ?], ax as [|[|ax]]; reflexivity. Qed.
Lemma setc_setc ax u v c : setc ax u (setc ax v c) = setc ax u c.
Proof. destruct c as [[? ?] ?], ax as [|[|ax]]; reflexivity. Qed.
Lemma setc_comp ax c : setc ax (comp ax c) c = c.
Proof. destruct c as [[? ?] ?], ax as [|[|ax]]; reflexivity. Qed.

Lemma shape_eqb_eq s t : shape_eqb s t = true <-> s = t.
Proof.
  destruct s as [[? ?] ?], t as [[? ?] ?]; unfold shape_eqb.
  rewrite !andb_true_iff, !Nat.eqb_eq. split; [intros [[-> ->] ->]; auto|intros [= -> -> ->]; auto].
Qed.

Lemma in_shape_setc ax s n c v :
  in_shape s c -> v < n -> in_shape (setc ax n s) (setc ax v c).
Proof. destruct s as [[? ?] ?], c as [[? ?] ?], ax as [|[|ax]]; simpl; lia. Qed.

Lemma in_shape_comp ax s c : in_shape s c -> comp ax c < comp ax s.
Proof. destruct s as [[? ?] ?], c as [[? ?] ?], ax as [|[|ax]]; simpl; lia. Qed.

Lemma in_shape_cross ax s t n c :
  in_shape t c -> setc ax 0 s = setc ax 0 t -> comp ax c < n -> in_shape (setc ax n s) c.
Proof.
  destruct s as [[? ?] ?], t as [[? ?] ?], c as [[? ?] ?], ax as [|[|ax]]; simpl;
    intros ? [= ] ?; subst; lia.
Qed.

Lemma ravelF_at {A} s (f : nat -> nat -> nat -> A) c :
  in_shape s c ->
  nth_error (let '(nx, ny, nz) := s in ravelF nx ny nz f) (fidx s c) =
  Some (let '(i, j, k) := c in f i j k).
Proof. destruct s as [[? ?] ?], c as [[? ?] ?]. intros. apply ravelF_fidx; auto. Qed.

Lemma fget_at {A} (d : A) s v c : in_shape s c -> length v = size3 s ->
  at_coord s v c = Some (fget d s v c).
Proof.
  intros H Hl. unfold at_coord, fget. apply nth_error_nth'. rewrite Hl. apply fidx_lt; auto.
Qed.

Lemma concat_axis_length {A} (d : A) ax skip sa sb a b :
  length (concat_axis d ax skip sa sb a b) =
  size3 (setc ax (comp ax sa + (comp ax sb - skip)) sa).
Proof.
  unfold concat_axis. destruct (setc _ _ _) as [[nx ny] nz]. rewrite ravelF_length; reflexivity.
Qed.

Lemma concat_axis_at {A} (d : A) ax skip sa sb a b c :
  let s := setc ax (comp ax sa + (comp ax sb - skip)) sa in
  in_shape s c ->
  at_coord s (concat_axis d ax skip sa sb a b) c =
  Some (if comp ax c <? comp ax sa then fget d sa a c
        else fget d sb b (setc ax (comp ax c - comp ax sa + skip) c)).
Proof.
  intros s Hc. unfold at_coord, concat_axis. fold s.
  etransitivity; [apply (ravelF_at s); auto|]. destruct c as [[? ?] ?]; reflexivity.
Qed.

Lemma concat_axis_left {A} (d : A) ax skip sa sb a b c :
  length a = size3 sa -> in_shape sa c ->
  at_coord (setc ax (comp ax sa + (comp ax sb - skip)) sa) (concat_axis d ax skip sa sb a b) c
  = at_coord sa a c.
Proof.
  intros Hl Hc. pose proof (in_shape_comp ax _ _ Hc).
  rewrite concat_axis_at.
  - destruct (Nat.ltb_spec (comp ax c) (comp ax sa)); [|lia]. symmetry; apply fget_at; auto.
  - rewrite <- (setc_comp ax c). apply in_shape_setc; auto. lia.
Qed.

Lemma in_shape_swap ax s t n c v :
  in_shape t c -> setc ax 0 s = setc ax 0 t -> v < n -> in_shape (setc ax n s) (setc ax v c).
Proof.
  destruct s as [[? ?] ?], t as [[? ?] ?], c as [[? ?] ?], ax as [|[|ax]]; simpl;
    intros ? [= ] ?; subst; lia.
Qed.

Lemma concat_axis_right {A} (d : A) ax skip sa sb a b c :
  length b = size3 sb -> setc ax 0 sa = setc ax 0 sb -> in_shape sb c -> skip <= comp ax c ->
  skip <= comp ax sa ->
  at_coord (setc ax (comp ax sa + (comp ax sb - skip)) sa) (concat_axis d ax skip sa sb a b)
    (shifted ax (comp ax sa - skip) c) = at_coord sb b c.
Proof.
  intros Hl He Hc Hs Hle. unfold shifted.
  pose proof (in_shape_comp ax _ _ Hc).
  rewrite concat_axis_at.
  - rewrite comp_setc, setc_setc.
    destruct (Nat.ltb_spec (comp ax sa - skip + comp ax c) (comp ax sa)); [lia|].
    replace (comp ax sa - skip + comp ax c - comp ax sa + skip) with (comp ax c) by lia.
    rewrite setc_comp. symmetry; apply fget_at; auto.
  - apply (in_shape_swap ax sa sb); auto. lia.
Qed.

(* ---- slices ---- *)
Lemma slice_length ax i s v : length (slice ax i s v) = size3 (setc ax 1 s).
Proof. unfold slice. destruct (setc ax 1 s) as [[? ?] ?]. apply ravelF_length. Qed.

Lemma slice_at ax i s v c :
  in_shape (setc ax 1 s) c ->
  nth_error (slice ax i s v) (fidx (setc ax 1 s) c) = Some (fget origin s v (setc ax i c)).
Proof.
  intros H. unfold slice. etransitivity; [apply (ravelF_at (setc ax 1 s)); auto|].
  destruct c as [[? ?] ?]; reflexivity.
Qed.

Lemma pt_close_near p q : pt_close p q = true <-> near p q.
Proof. apply pt_close_iff. Qed.

Lemma all_close_nth ps qs :
  all_close ps qs = true <->
  (forall i p q, nth_error ps i = Some p -> nth_error qs i = Some q -> near p q).
Proof.
  unfold all_close. rewrite forallb_forall. split.
  - intros H i p q Hp Hq. apply pt_close_near. apply (H (p, q)).
    apply nth_error_In with i. revert i qs Hp Hq H.
    induction ps as [|x ps IH]; intros [|i] [|y qs]; simpl; try discriminate.
    + intros [= ->] [= ->]; auto.
    + intros Hp Hq H. apply IH; auto.
  - intros H [p q] Hin. apply pt_close_near. apply In_nth_error in Hin as [i Hi].
    assert (nth_error ps i = Some p /\ nth_error qs i = Some q) as [? ?]; eauto.
    clear H. revert i qs Hi. induction ps as [|x ps IH]; intros [|i] [|y qs]; simpl; try discriminate.
    + intros [= -> ->]; auto.
    + intros Hi. apply IH; auto.
Qed.

Lemma setc_01 ax s t : setc ax 0 s = setc ax 0 t -> setc ax 1 s = setc ax 1 t.
Proof.
  destruct s as [[? ?] ?], t as [[? ?] ?], ax as [|[|ax]]; simpl; intros [= ]; subst; auto.
Qed.

Lemma in_slice ax s c i : in_shape (setc ax 1 s) c -> i < comp ax s -> in_shape s (setc ax i c).
Proof. destruct s as [[? ?] ?], c as [[? ?] ?], ax as [|[|ax]]; simpl; lia. Qed.

Lemma all_close_slices ax sa sb a b i j :
  setc ax 0 sa = setc ax 0 sb -> length a = size3 sa -> length b = size3 sb ->
  i < comp ax sa -> j < comp ax sb ->
  all_close (slice ax i sa a) (slice ax j sb b) = true <->
  (forall c p q, in_shape (setc ax 1 sa) c -> at_coord sa a (setc ax i c) = Some p ->
     at_coord sb b (setc ax j c) = Some q -> near p q).
Proof.
  intros He Ha Hb Hi Hj. rewrite all_close_nth.
  pose proof (setc_01 _ _ _ He) as H1. split.
  - intros H c p q Hc Hp Hq.
    rewrite (fget_at origin) in Hp by (auto; apply in_slice; auto).
    rewrite (fget_at origin) in Hq by (auto; apply in_slice; auto; rewrite <- H1; auto).
    injection Hp as <-. injection Hq as <-.
    apply (H (fidx (setc ax 1 sa) c)).
    + apply slice_at; auto.
    + rewrite H1. apply slice_at; rewrite <- H1; auto.
  - intros H n p q Hp Hq.
    assert (n < size3 (setc ax 1 sa)) as Hn.
    { rewrite <- (slice_length ax i sa a). apply nth_error_Some; congruence. }
    destruct (fidx_surj _ _ Hn) as (c & Hc & <-).
    rewrite slice_at in Hp by auto. rewrite H1 in Hq. rewrite slice_at in Hq by (rewrite <- H1; auto).
    apply (H c); auto.
    + rewrite <- Hp. apply fget_at; auto. apply in_slice; auto.
    + rewrite <- Hq. apply fget_at; auto. apply in_slice; auto. rewrite <- H1; auto.
Qed.

(* ---- cell arrays ---- *)
Lemma cell_shape_comp ax d : comp ax (cell_shape d) = Nat.max 1 (comp ax d - 1).
Proof. destruct d as [[? ?] ?], ax as [|[|ax]]; reflexivity. Qed.

Lemma cell_shape_setc ax n d : cell_shape (setc ax n d) = setc ax (Nat.max 1 (n - 1)) (cell_shape d).
Proof. destruct d as [[? ?] ?], ax as [|[|ax]]; reflexivity. Qed.

Lemma cell_shape_cross ax da db : setc ax 0 da = setc ax 0 db ->
  setc ax 0 (cell_shape da) = setc ax 0 (cell_shape db).
Proof.
  destruct da as [[? ?] ?], db as [[? ?] ?], ax as [|[|ax]]; simpl; intros [= ]; subst; auto.
Qed.

Definition mdims ax (da db : shape3) := setc ax (comp ax da + (comp ax db - 1)) da.

Lemma mdims_cells ax da db : 2 <= comp ax da -> 2 <= comp ax db ->
  cell_shape (mdims ax da db) =
  setc ax (comp ax (cell_shape da) + (comp ax (cell_shape db) - 0)) (cell_shape da).
Proof.
  intros Ha Hb. unfold mdims. rewrite cell_shape_setc, !cell_shape_comp. f_equal. lia.
Qed.

Lemma n_cells_pos d : 0 < n_cells d.
Proof. destruct d as [[x y] z]. unfold n_cells, cell_shape, size3. nia. Qed.

Lemma merge_array_spec {A} ax da db (a b v : list A) :
  setc ax 0 da = setc ax 0 db -> 2 <= comp ax da -> 2 <= comp ax db ->
  merge_array ax da db (n_cells (mdims ax da db)) a b = Ok v ->
  length v = n_cells (mdims ax da db) /\
  (forall c, in_shape (cell_shape da) c ->
     at_coord (cell_shape (mdims ax da db)) v c = at_coord (cell_shape da) a c) /\
  (forall c, in_shape (cell_shape db) c ->
     at_coord (cell_shape (mdims ax da db)) v (shifted ax (comp ax da - 1) c)
     = at_coord (cell_shape db) b c).
Proof.
  intros He Ha Hb. unfold merge_array.
  destruct (length a =? n_cells da) eqn:La; [|discriminate].
  destruct (length b =? n_cells db) eqn:Lb; [|discriminate].
  apply Nat.eqb_eq in La. apply Nat.eqb_eq in Lb. cbn [andb negb].
  destruct a as [|d a'] eqn:Ea; [discriminate|]. rewrite <- Ea in *. clear Ea.
  set (w := concat_axis _ _ _ _ _ _ _).
  destruct (length w =? _) eqn:Lw; [|discriminate]. apply Nat.eqb_eq in Lw.
  intros <-%Ok_inj. split; [auto|].
  rewrite mdims_cells by auto. split; intros c Hc.
  - apply concat_axis_left; auto.
  - replace (comp ax da - 1) with (comp ax (cell_shape da) - 0) by (rewrite cell_shape_comp; lia).
    apply concat_axis_right; auto; try lia. apply cell_shape_cross; auto.
Qed.

Lemma merge_array_defined {A} ax da db (a b : list A) :
  setc ax 0 da = setc ax 0 db -> 2 <= comp ax da -> 2 <= comp ax db ->
  length a = n_cells da -> length b = n_cells db ->
  exists v, merge_array ax da db (n_cells (mdims ax da db)) a b = Ok v.
Proof.
  intros He Ha Hb La Lb. unfold merge_array. rewrite La, Lb, !Nat.eqb_refl. cbn [andb negb].
  destruct a as [|d a'] eqn:Ea.
  { pose proof (n_cells_pos da). simpl in La. lia. }
  rewrite concat_axis_length. rewrite <- mdims_cells by auto. unfold n_cells at 1.
  rewrite Nat.eqb_refl. eauto.
Qed.

Lemma lookup_In {X} k (l : list (string * X)) v : lookup k l = Some v -> In (k, v) l.
Proof.
  induction l as [|[k' v'] l IH]; simpl; [discriminate|].
  destruct (String.eqb_spec k k') as [->|]; [intros [= ->]; auto|auto].
Qed.
Lemma lookup_None {X} k (l : list (string * X)) : lookup k l = None <-> ~ In k (map fst l).
Proof.
  induction l as [|[k' v'] l IH]; simpl; [tauto|].
  destruct (String.eqb_spec k k') as [->|]; [|rewrite IH; intuition congruence].
  split; [discriminate|tauto].
Qed.
Lemma lookup_NoDup {X} k (l : list (string * X)) v :
  NoDup (map fst l) -> In (k, v) l -> lookup k l = Some v.
Proof.
  induction l as [|[k' v'] l IH]; simpl; [tauto|]. intros Hn.
  inversion Hn as [|? ? Hk Hl]; subst. intros [[= -> ->]|Hin]; [rewrite String.eqb_refl; auto|].
  destruct (String.eqb_spec k k') as [->|]; auto.
  destruct Hk. apply in_map_iff. exists (k', v); auto.
Qed.

Lemma merge_cell_data_In {D} ax da db n (cda cdb cd : list (string * list D)) :
  merge_cell_data ax da db n cda cdb = Ok cd ->
  (forall k x, In (k, x) cd <-> exists v w, In (k, v) cda /\ lookup k cdb = Some w /\
                                          merge_array ax da db n v w = Ok x) /\
  (forall k, In k (map fst cd) <-> In k (map fst cda) /\ In k (map fst cdb)) /\
  (NoDup (map fst cda) -> NoDup (map fst cd)).
Proof.
  revert cd; induction cda as [|[k v] cda IH]; simpl; intros cd.
  - intros <-%Ok_inj. simpl. split; [|split; [tauto|auto]].
    intros k x; split; [intros []|intros (? & ? & [] & _)].
  - destruct (lookup k cdb) as [w|] eqn:El.
    + destruct (merge_array ax da db n v w) as [x|] eqn:Em; [|discriminate]. simpl.
      destruct (merge_cell_data ax da db n cda cdb) as [xs|] eqn:Ec; [|discriminate].
      intros <-%Ok_inj. destruct (IH xs eq_refl) as (I1 & I2 & I3). split; [|split].
      * intros k0 x0. simpl. rewrite I1. split.
        -- intros [[= <- <-]|(v0 & w0 & ? & ? & ?)]; eauto 8.
        -- intros (v0 & w0 & [[= <- <-]|Hin] & Hl & Hm); [left; congruence|eauto 8].
      * intros k0; simpl. rewrite I2.
        assert (In k (map fst cdb)).
        { apply lookup_In in El. apply in_map_iff. exists (k, w); auto. }
        intuition (subst; auto).
      * intros Hn; simpl. inversion Hn as [|? ? Hk Hr]; subst. constructor; [|auto].
        rewrite I2; tauto.
    + intros Hc. destruct (IH cd Hc) as (I1 & I2 & I3). split; [|split].
      * intros k0 x0. rewrite I1. split.
        -- intros (v0 & w0 & ? & ? & ?); eauto 8.
        -- intros (v0 & w0 & [[= <- <-]|Hin] & Hl & Hm); [congruence|eauto 8].
      * intros k0. rewrite I2. apply lookup_None in El.
        intuition (subst; auto). tauto.
      * intros Hn. inversion Hn; auto.
Qed.

Lemma merge_cell_data_defined {D} ax da db (cda cdb : list (string * list D)) :
  setc ax 0 da = setc ax 0 db -> 2 <= comp ax da -> 2 <= comp ax db ->
  (forall k v, In (k, v) cda -> length v = n_cells da) ->
  (forall k v, In (k, v) cdb -> length v = n_cells db) ->
  exists cd, merge_cell_data ax da db (n_cells (mdims ax da db)) cda cdb = Ok cd.
Proof.
  intros He Ha Hb La Lb. induction cda as [|[k v] cda IH]; simpl; [eauto|].
  destruct IH as [cd Hcd]; [intros; eapply La; right; eauto|].
  destruct (lookup k cdb) as [w|] eqn:El; [|eauto].
  destruct (merge_array_defined ax da db v w) as [x Hx]; auto.
  - eapply La; left; eauto.
  - eapply Lb. eapply lookup_In; eauto.
  - rewrite Hx; simpl. rewrite Hcd; simpl. eauto.
Qed.

(* ---- one step ---- *)
Lemma wf_unfold {D} ax (g : sgrid D) : wf_grid ax g <->
  (forall i, i <= 2 -> 1 <= comp i (sg_dims g)) /\ 2 <= comp ax (sg_dims g) /\
  length (sg_pts g) = size3 (sg_dims g) /\ NoDup (map fst (sg_cd g)) /\
  (forall k v, In (k, v) (sg_cd g) -> length v = n_cells (sg_dims g)) /\
  length (sg_ghost g) = n_cells (sg_dims g).
Proof.
  unfold wf_grid. destruct (sg_dims g) as [[x y] z]. split.
  - intros (Hd & R). split; [|exact R]. intros [|[|[|i]]] Hi; simpl; lia.
  - intros (Hd & R). split; [|exact R].
    pose proof (Hd 0 ltac:(lia)). pose proof (Hd 1 ltac:(lia)). pose proof (Hd 2 ltac:(lia)).
    simpl in *; lia.
Qed.

Lemma merge2_inv {D} ax (a b m : sgrid D) :
  merge2 ax a b = Ok m ->
  setc ax 0 (sg_dims a) = setc ax 0 (sg_dims b) /\
  0 < comp ax (sg_dims a) /\ 0 < comp ax (sg_dims b) /\
  all_close (slice ax (comp ax (sg_dims a) - 1) (sg_dims a) (sg_pts a))
            (slice ax 0 (sg_dims b) (sg_pts b)) = true /\
  sg_dims m = mdims ax (sg_dims a) (sg_dims b) /\
  sg_pts m = concat_axis origin ax 1 (sg_dims a) (sg_dims b) (sg_pts a) (sg_pts b) /\
  sg_pd m = [] /\
  merge_cell_data ax (sg_dims a) (sg_dims b) (n_cells (sg_dims m)) (sg_cd a) (sg_cd b) = Ok (sg_cd m) /\
  (sg_ghost a <> [] -> sg_ghost b <> [] ->
   merge_array ax (sg_dims a) (sg_dims b) (n_cells (sg_dims m)) (sg_ghost a) (sg_ghost b)
   = Ok (sg_ghost m)).
Proof.
  unfold merge2.
  destruct (Nat.eqb_spec (comp ax (sg_dims a)) 0); [discriminate|].
  destruct (Nat.eqb_spec (comp ax (sg_dims b)) 0); [discriminate|]. cbn [orb].
  destruct (shape_eqb _ _) eqn:Es; [|discriminate]. apply shape_eqb_eq in Es. cbn [negb].
  destruct (all_close _ _) eqn:Ec; [|discriminate]. cbn [negb].
  change (setc ax (comp ax (sg_dims a) + (comp ax (sg_dims b) - 1)) (sg_dims a))
    with (mdims ax (sg_dims a) (sg_dims b)).
  destruct (merge_cell_data _ _ _ _ _ _) as [cd|] eqn:Ed; [|discriminate]. cbn [bind].
  destruct (sg_ghost a) as [|ga0 ga] eqn:Ga.
  - cbn [bind]. intros <-%Ok_inj. cbn. repeat split; auto; try lia; tauto.
  - destruct (sg_ghost b) as [|gb0 gb] eqn:Gb.
    + cbn [bind]. intros <-%Ok_inj. cbn. repeat split; auto; try lia; tauto.
    + destruct (merge_array _ _ _ _ _ _) as [gh|] eqn:Eg; [|discriminate]. cbn [bind].
      intros <-%Ok_inj. cbn. repeat split; auto; lia.
Qed.

Lemma mdims_comp ax da db i : ax <= 2 -> i <= 2 ->
  comp i (mdims ax da db) = if i =? ax then comp ax da + (comp ax db - 1) else comp i da.
Proof.
  unfold mdims. destruct da as [[? ?] ?], ax as [|[|[|ax]]], i as [|[|[|i]]]; intros; try lia; reflexivity.
Qed.

Lemma ghost_nonempty {D} ax (g : sgrid D) : wf_grid ax g -> sg_ghost g <> [].
Proof.
  intros (_ & _ & _ & _ & _ & H)%wf_unfold E. rewrite E in H. simpl in H.
  pose proof (n_cells_pos (sg_dims g)). lia.
Qed.

Lemma merge2_wf {D} ax (a b m : sgrid D) : ax <= 2 ->
  wf_grid ax a -> wf_grid ax b -> merge2 ax a b = Ok m -> wf_grid ax m.
Proof.
  intros Hax Wa Wb Hm. pose proof (ghost_nonempty _ _ Wa) as Na. pose proof (ghost_nonempty _ _ Wb) as Nb.
  apply wf_unfold in Wa as (A1 & A2 & A3 & A4 & A5 & A6).
  apply wf_unfold in Wb as (B1 & B2 & B3 & B4 & B5 & B6).
  destruct (merge2_inv _ _ _ _ Hm) as (He & _ & _ & _ & Hd & Hp & _ & Hc & Hg).
  specialize (Hg Na Nb).
  apply wf_unfold. rewrite Hd in *. repeat split.
  - intros i Hi. rewrite mdims_comp by auto. specialize (A1 i Hi). destruct (i =? ax); lia.
  - rewrite mdims_comp, Nat.eqb_refl by auto. lia.
  - rewrite Hp, concat_axis_length. reflexivity.
  - apply merge_cell_data_In in Hc as (_ & _ & H). auto.
  - intros k v Hin. apply merge_cell_data_In in Hc as (H & _). apply H in Hin as (x & y & _ & _ & Hxy).
    apply merge_array_spec in Hxy as (Hl & _); auto.
  - apply merge_array_spec in Hg as (Hl & _); auto.
Qed.

Lemma merge2_points {D} ax (a b m : sgrid D) :
  wf_grid ax a -> wf_grid ax b -> merge2 ax a b = Ok m ->
  (forall c, in_shape (sg_dims a) c ->
     at_coord (sg_dims m) (sg_pts m) c = at_coord (sg_dims a) (sg_pts a) c) /\
  (forall c, in_shape (sg_dims b) c -> 0 < comp ax c ->
     at_coord (sg_dims m) (sg_pts m) (shifted ax (comp ax (sg_dims a) - 1) c)
     = at_coord (sg_dims b) (sg_pts b) c) /\
  (forall c p q, in_shape (sg_dims b) c -> comp ax c = 0 ->
     at_coord (sg_dims m) (sg_pts m) (shifted ax (comp ax (sg_dims a) - 1) c) = Some p ->
     at_coord (sg_dims b) (sg_pts b) c = Some q -> near p q).
Proof.
  intros Wa Wb Hm.
  apply wf_unfold in Wa as (A1 & A2 & A3 & A4 & A5 & A6).
  apply wf_unfold in Wb as (B1 & B2 & B3 & B4 & B5 & B6).
  destruct (merge2_inv _ _ _ _ Hm) as (He & _ & _ & Hcl & Hd & Hp & _ & _ & _).
  assert (L : forall c, in_shape (sg_dims a) c ->
     at_coord (sg_dims m) (sg_pts m) c = at_coord (sg_dims a) (sg_pts a) c).
  { intros c Hc. rewrite Hd, Hp. apply concat_axis_left; auto. }
  split; [exact L|split].
  - intros c Hc H0. rewrite Hd, Hp. apply concat_axis_right; auto; lia.
  - intros c p q Hc H0 Hpp Hq.
    assert (Hin : in_shape (setc ax 1 (sg_dims a)) c).
    { apply (in_shape_cross ax _ (sg_dims b)); auto. lia. }
    unfold shifted in Hpp. rewrite H0, Nat.add_0_r in Hpp.
    rewrite L in Hpp by (apply in_slice; auto; lia).
    rewrite all_close_slices in Hcl by (auto; lia).
    apply (Hcl c p q); auto. rewrite <- H0, setc_comp; auto.
Qed.

Lemma merge2_cells {D} ax (a b m : sgrid D) :
  wf_grid ax a -> wf_grid ax b -> merge2 ax a b = Ok m ->
  (forall k, In k (map fst (sg_cd m)) <-> In k (map fst (sg_cd a)) /\ In k (map fst (sg_cd b))) /\
  (forall k x v w, In (k, x) (sg_cd m) -> In (k, v) (sg_cd a) -> In (k, w) (sg_cd b) ->
     (forall c, in_shape (cell_shape (sg_dims a)) c ->
        at_coord (cell_shape (sg_dims m)) x c = at_coord (cell_shape (sg_dims a)) v c) /\
     (forall c, in_shape (cell_shape (sg_dims b)) c ->
        at_coord (cell_shape (sg_dims m)) x (shifted ax (comp ax (sg_dims a) - 1) c)
        = at_coord (cell_shape (sg_dims b)) w c)) /\
  (forall c, in_shape (cell_shape (sg_dims a)) c ->
     at_coord (cell_shape (sg_dims m)) (sg_ghost m) c
     = at_coord (cell_shape (sg_dims a)) (sg_ghost a) c) /\
  (forall c, in_shape (cell_shape (sg_dims b)) c ->
     at_coord (cell_shape (sg_dims m)) (sg_ghost m) (shifted ax (comp ax (sg_dims a) - 1) c)
     = at_coord (cell_shape (sg_dims b)) (sg_ghost b) c).
Proof.
  intros Wa Wb Hm. pose proof (ghost_nonempty _ _ Wa) as Na. pose proof (ghost_nonempty _ _ Wb) as Nb.
  apply wf_unfold in Wa as (A1 & A2 & A3 & A4 & A5 & A6).
  apply wf_unfold in Wb as (B1 & B2 & B3 & B4 & B5 & B6).
  destruct (merge2_inv _ _ _ _ Hm) as (He & _ & _ & Hcl & Hd & Hp & _ & Hc & Hg).
  specialize (Hg Na Nb). rewrite Hd in *.
  apply merge_array_spec in Hg as (_ & G1 & G2); auto.
  apply merge_cell_data_In in Hc as (I1 & I2 & I3).
  split; [auto|split; [|auto]].
  intros k x v w Hx Hv Hw. apply I1 in Hx as (v' & w' & Hv' & Hw' & Hxx).
  assert (v' = v).
  { apply (lookup_NoDup _ _ _ A4) in Hv. apply (lookup_NoDup _ _ _ A4) in Hv'. congruence. }
  assert (w' = w) by (apply (lookup_NoDup _ _ _ B4) in Hw; congruence).
  subst. apply merge_array_spec in Hxx as (_ & X1 & X2); auto.
Qed.

Lemma merge2_ok {D} ax (a b : sgrid D) :
  wf_grid ax a -> wf_grid ax b ->
  (interface_ok ax a b <-> exists m, merge2 ax a b = Ok m) /\
  (~ interface_ok ax a b -> merge2 ax a b = Err ValueError).
Proof.
  intros Wa Wb. pose proof (ghost_nonempty _ _ Wa) as Na. pose proof (ghost_nonempty _ _ Wb) as Nb.
  apply wf_unfold in Wa as (A1 & A2 & A3 & A4 & A5 & A6).
  apply wf_unfold in Wb as (B1 & B2 & B3 & B4 & B5 & B6).
  unfold interface_ok.
  destruct (merge2 ax a b) as [m|e] eqn:Hm.
  - destruct (merge2_inv _ _ _ _ Hm) as (He & _ & _ & Hcl & Hd & _).
    assert (I : interface_ok ax a b).
    { split; auto. rewrite all_close_slices in Hcl by (auto; lia). auto. }
    split; [split; [eauto|intros _; exact I]|intros N; destruct N; exact I].
  - assert (E : e = ValueError /\ ~ interface_ok ax a b).
    2: { destruct E as [-> N]. split; [|auto]. split; [intros I; destruct N; auto|intros [m ?]; discriminate]. }
    revert Hm. unfold merge2.
    destruct (Nat.eqb_spec (comp ax (sg_dims a)) 0); [lia|].
    destruct (Nat.eqb_spec (comp ax (sg_dims b)) 0); [lia|]. cbn [orb].
    destruct (shape_eqb _ _) eqn:Es; cbn [negb].
    2: { intros [= <-]. split; auto. intros [He _]. apply shape_eqb_eq in He. congruence. }
    apply shape_eqb_eq in Es.
    destruct (all_close _ _) eqn:Ec; cbn [negb].
    2: { intros [= <-]. split; auto. intros [He I].
         assert (all_close (slice ax (comp ax (sg_dims a) - 1) (sg_dims a) (sg_pts a))
                   (slice ax 0 (sg_dims b) (sg_pts b)) = true); [|congruence].
         rewrite all_close_slices by (auto; lia). auto. }
    change (setc ax (comp ax (sg_dims a) + (comp ax (sg_dims b) - 1)) (sg_dims a))
      with (mdims ax (sg_dims a) (sg_dims b)).
    destruct (merge_cell_data_defined ax (sg_dims a) (sg_dims b) (sg_cd a) (sg_cd b)) as [cd Hcd]; auto.
    rewrite Hcd; cbn [bind].
    destruct (merge_array_defined ax (sg_dims a) (sg_dims b) (sg_ghost a) (sg_ghost b)) as [gh Hgh]; auto.
    destruct (sg_ghost a); [congruence|]. destruct (sg_ghost b); [congruence|].
    rewrite Hgh; cbn [bind]. discriminate.
Qed.

(* ---- the fold ---- *)
Lemma offset_cons {D} ax (a : sgrid D) l j :
  offset ax (a :: l) (S j) = comp ax (sg_dims a) - 1 + offset ax l j.
Proof. reflexivity. Qed.

Lemma offset_0 {D} ax (l : list (sgrid D)) : offset ax l 0 = 0.
Proof. reflexivity. Qed.

Lemma shifted_0 ax c : shifted ax 0 c = c.
Proof. unfold shifted. apply setc_comp. Qed.
Lemma shifted_shifted ax m n c : shifted ax m (shifted ax n c) = shifted ax (m + n) c.
Proof. unfold shifted. rewrite comp_setc, setc_setc. f_equal; lia. Qed.

Lemma merge_fold_wf {D} ax (a : sgrid D) l g : ax <= 2 ->
  wf_grid ax a -> Forall (wf_grid ax) l -> merge_fold ax a l = Ok g ->
  wf_grid ax g /\
  sg_dims g = setc ax (S (offset ax (a :: l) (S (length l)))) (sg_dims a) /\
  Forall (fun b => setc ax 0 (sg_dims a) = setc ax 0 (sg_dims b)) l.
Proof.
  intros Hax. revert a; induction l as [|b l IH]; intros a Wa Wl; simpl merge_fold.
  - intros <-%Ok_inj. split; [auto|split; [|constructor]].
    rewrite offset_cons, offset_0. apply wf_unfold in Wa as (_ & Ha & _).
    replace (S (comp ax (sg_dims a) - 1 + 0)) with (comp ax (sg_dims a)) by lia.
    symmetry; apply setc_comp.
  - destruct (merge2 ax a b) as [m|] eqn:Hm; [|discriminate]. cbn [bind]. intros Hg.
    inversion Wl as [|? ? Wb Wl']; subst.
    pose proof (merge2_wf _ _ _ _ Hax Wa Wb Hm) as Wm.
    destruct (IH m Wm Wl' Hg) as (Wg & Hd & Hf).
    destruct (merge2_inv _ _ _ _ Hm) as (He & _ & _ & _ & Hdm & _).
    apply wf_unfold in Wa as (_ & Ha & _). apply wf_unfold in Wb as (_ & Hb & _).
    assert (Hz : setc ax 0 (sg_dims m) = setc ax 0 (sg_dims a)).
    { rewrite Hdm. unfold mdims. apply setc_setc. }
    split; [auto|split].
    + rewrite Hd, Hdm. unfold mdims. rewrite setc_setc. f_equal. simpl length.
      rewrite !offset_cons. rewrite Hdm. unfold mdims. rewrite comp_setc. lia.
    + constructor; auto. eapply Forall_impl; [|exact Hf]. simpl. intros x Hx. congruence.
Qed.

Lemma merge_fold_points {D} ax (a : sgrid D) l g : ax <= 2 ->
  wf_grid ax a -> Forall (wf_grid ax) l -> merge_fold ax a l = Ok g ->
  forall j b c, nth_error (a :: l) j = Some b -> in_shape (sg_dims b) c ->
    (j = 0 \/ 0 < comp ax c ->
     at_coord (sg_dims g) (sg_pts g) (shifted ax (offset ax (a :: l) j) c)
     = at_coord (sg_dims b) (sg_pts b) c) /\
    (forall p q, at_coord (sg_dims g) (sg_pts g) (shifted ax (offset ax (a :: l) j) c) = Some p ->
       at_coord (sg_dims b) (sg_pts b) c = Some q -> near p q).
Proof.
  pose proof near_refl as NR.
  intros Hax. revert a; induction l as [|b l IH]; intros a Wa Wl; simpl merge_fold.
  - intros <-%Ok_inj. intros [|[|j]] b c; simpl; try discriminate. intros [= ->] Hc.
    rewrite shifted_0. split; auto. intros p q Hp Hq. rewrite Hp in Hq. injection Hq as ->. auto.
  - destruct (merge2 ax a b) as [m|] eqn:Hm; [|discriminate]. cbn [bind]. intros Hg.
    inversion Wl as [|? ? Wb Wl']; subst.
    pose proof (merge2_wf _ _ _ _ Hax Wa Wb Hm) as Wm.
    specialize (IH m Wm Wl' Hg).
    destruct (merge2_points _ _ _ _ Wa Wb Hm) as (P1 & P2 & P3).
    destruct (merge2_inv _ _ _ _ Hm) as (He & _ & _ & _ & Hdm & _).
    apply wf_unfold in Wa as (_ & Ha & _). apply wf_unfold in Wb as (_ & Hb & _).
    assert (Cm : comp ax (sg_dims m) = comp ax (sg_dims a) + (comp ax (sg_dims b) - 1)).
    { rewrite Hdm. unfold mdims. apply comp_setc. }
    assert (Im : forall c n, in_shape (sg_dims a) c \/ in_shape (sg_dims b) c ->
                 n + comp ax c < comp ax (sg_dims m) -> in_shape (sg_dims m) (shifted ax n c)).
    { intros c n Hc Hn. unfold shifted. rewrite Hdm. unfold mdims. rewrite <- Cm.
      destruct Hc as [Hc|Hc]; [apply in_shape_setc; auto|apply (in_shape_swap ax _ (sg_dims b)); auto]. }
    intros [|[|j]] x c Hx Hc.
    + cbn [nth_error] in Hx. injection Hx as <-. rewrite offset_0, shifted_0.
      assert (Ecc : at_coord (sg_dims g) (sg_pts g) c = at_coord (sg_dims a) (sg_pts a) c).
      { destruct (IH 0 m c eq_refl) as [E _].
        { rewrite <- (shifted_0 ax c). pose proof (in_shape_comp ax _ _ Hc). apply Im; [auto|lia]. }
        rewrite offset_0, shifted_0 in E. rewrite E by auto. apply P1; auto. }
      split; auto. intros p q Hp Hq. rewrite Ecc in Hp. rewrite Hp in Hq. injection Hq as ->. auto.
    + cbn [nth_error] in Hx. injection Hx as <-. rewrite offset_cons, offset_0, Nat.add_0_r.
      pose proof (in_shape_comp ax _ _ Hc).
      assert (E : at_coord (sg_dims g) (sg_pts g) (shifted ax (comp ax (sg_dims a) - 1) c)
                  = at_coord (sg_dims m) (sg_pts m) (shifted ax (comp ax (sg_dims a) - 1) c)).
      { destruct (IH 0 m (shifted ax (comp ax (sg_dims a) - 1) c) eq_refl) as [E _].
        { apply Im; [auto|lia]. }
        rewrite offset_0, shifted_0 in E. apply E; auto. }
      rewrite E. destruct (Nat.eq_dec (comp ax c) 0) as [H0|H0].
      * split; [intros [|]; lia|]. intros p q. apply P3; auto.
      * rewrite P2 by (auto; lia). split; auto. intros p q Hp Hq. rewrite Hp in Hq. injection Hq as ->. auto.
    + cbn [nth_error] in Hx.
      destruct (IH (S j) x c Hx Hc) as [E1 E2].
      rewrite offset_cons in E1, E2. rewrite !offset_cons. rewrite Cm in E1, E2.
      replace (comp ax (sg_dims a) - 1 + (comp ax (sg_dims b) - 1 + offset ax l j))
        with (comp ax (sg_dims a) + (comp ax (sg_dims b) - 1) - 1 + offset ax l j) by lia.
      split; [|exact E2]. intros [|Hpos]; [lia|]. apply E1; auto.
Qed.

Lemma merge_fold_cells {D} ax (a : sgrid D) l g : ax <= 2 ->
  wf_grid ax a -> Forall (wf_grid ax) l -> merge_fold ax a l = Ok g ->
  (forall k, In k (map fst (sg_cd g)) <-> forall b, In b (a :: l) -> In k (map fst (sg_cd b))) /\
  (forall k x j b v c, In (k, x) (sg_cd g) -> nth_error (a :: l) j = Some b -> In (k, v) (sg_cd b) ->
     in_shape (cell_shape (sg_dims b)) c ->
     at_coord (cell_shape (sg_dims g)) x (shifted ax (offset ax (a :: l) j) c)
     = at_coord (cell_shape (sg_dims b)) v c) /\
  (forall j b c, nth_error (a :: l) j = Some b -> in_shape (cell_shape (sg_dims b)) c ->
     at_coord (cell_shape (sg_dims g)) (sg_ghost g) (shifted ax (offset ax (a :: l) j) c)
     = at_coord (cell_shape (sg_dims b)) (sg_ghost b) c).
Proof.
  intros Hax. revert a; induction l as [|b l IH]; intros a Wa Wl; simpl merge_fold.
  - intros <-%Ok_inj. split; [|split].
    + intros k. simpl. split; [intros H b [->|[]]; auto|intros H; apply H; auto].
    + intros k x [|[|j]] b v c Hx; simpl; try discriminate. intros [= ->] Hv Hc.
      rewrite shifted_0. apply wf_unfold in Wa as (_ & _ & _ & Hn & _).
      apply (lookup_NoDup _ _ _ Hn) in Hv. apply (lookup_NoDup _ _ _ Hn) in Hx. congruence.
    + intros [|[|j]] b c; simpl; try discriminate. intros [= ->] Hc. rewrite shifted_0; auto.
  - destruct (merge2 ax a b) as [m|] eqn:Hm; [|discriminate]. cbn [bind]. intros Hg.
    inversion Wl as [|? ? Wb Wl']; subst.
    pose proof (merge2_wf _ _ _ _ Hax Wa Wb Hm) as Wm.
    specialize (IH m Wm Wl' Hg) as (IK & IC & IG).
    destruct (merge2_cells _ _ _ _ Wa Wb Hm) as (K & C & G1 & G2).
    destruct (merge2_inv _ _ _ _ Hm) as (He & _ & _ & _ & Hdm & _).
    apply wf_unfold in Wa as (_ & Ha & _ & Na & _). apply wf_unfold in Wb as (_ & Hb & _ & Nb & _).
    assert (Cm : comp ax (sg_dims m) = comp ax (sg_dims a) + (comp ax (sg_dims b) - 1)).
    { rewrite Hdm. unfold mdims. apply comp_setc. }
    assert (Cc : comp ax (cell_shape (sg_dims m)) = comp ax (sg_dims a) - 1 + (comp ax (sg_dims b) - 1)).
    { rewrite cell_shape_comp, Cm. lia. }
    assert (Im : forall c n, in_shape (cell_shape (sg_dims a)) c \/ in_shape (cell_shape (sg_dims b)) c ->
                 n + comp ax c < comp ax (cell_shape (sg_dims m)) ->
                 in_shape (cell_shape (sg_dims m)) (shifted ax n c)).
    { intros c n Hc Hn. rewrite Hdm in *. unfold shifted. rewrite mdims_cells in * by auto.
      rewrite comp_setc in Hn.
      destruct Hc as [Hc|Hc]; [apply in_shape_setc; auto|].
      apply (in_shape_swap ax _ (cell_shape (sg_dims b))); auto. apply cell_shape_cross; auto. }
    assert (Ia : forall c, in_shape (cell_shape (sg_dims a)) c -> in_shape (cell_shape (sg_dims m)) c).
    { intros c Hc. rewrite <- (shifted_0 ax c). apply Im; auto.
      pose proof (in_shape_comp ax _ _ Hc) as H. rewrite cell_shape_comp in H. lia. }
    assert (Ib : forall c, in_shape (cell_shape (sg_dims b)) c ->
              in_shape (cell_shape (sg_dims m)) (shifted ax (comp ax (sg_dims a) - 1) c)).
    { intros c Hc. apply Im; auto.
      pose proof (in_shape_comp ax _ _ Hc) as H. rewrite cell_shape_comp in H. lia. }
    split; [|split].
    + intros k. rewrite IK. split.
      * intros H x [<-|[<-|Hx]]; [| |apply H; right; auto];
          pose proof (H m (or_introl eq_refl)) as Hk; apply K in Hk; tauto.
      * intros H x [<-|Hx]; [|apply H; simpl; auto]. apply K. split; apply H; simpl; auto.
    + intros k x j y v c Hx Hy Hv Hc.
      assert (Hkm : In k (map fst (sg_cd m))).
      { apply (proj1 (IK k)); [|left; auto]. apply in_map_iff; exists (k, x); auto. }
      pose proof (proj1 (K k) Hkm) as (Hka & Hkb).
      apply in_map_iff in Hkm as ([k1 vm] & E1 & Hvm). simpl in E1; subst k1.
      apply in_map_iff in Hka as ([k1 va] & E1 & Hva). simpl in E1; subst k1.
      apply in_map_iff in Hkb as ([k1 vb] & E1 & Hvb). simpl in E1; subst k1.
      destruct (C k vm va vb Hvm Hva Hvb) as [C1 C2].
      destruct j as [|[|j]]; cbn [nth_error] in Hy.
      * injection Hy as <-. rewrite offset_0, shifted_0.
        pose proof (IC k x 0 m vm c Hx eq_refl Hvm (Ia c Hc)) as E.
        rewrite offset_0, shifted_0 in E. rewrite E, C1 by auto. f_equal.
        apply (lookup_NoDup _ _ _ Na) in Hv. apply (lookup_NoDup _ _ _ Na) in Hva. congruence.
      * injection Hy as <-. rewrite offset_cons, offset_0, Nat.add_0_r.
        pose proof (IC k x 0 m vm _ Hx eq_refl Hvm (Ib c Hc)) as E.
        rewrite offset_0, shifted_0 in E. rewrite E, C2 by auto. f_equal.
        apply (lookup_NoDup _ _ _ Nb) in Hv. apply (lookup_NoDup _ _ _ Nb) in Hvb. congruence.
      * pose proof (IC k x (S j) y v c Hx Hy Hv Hc) as E.
        rewrite offset_cons, Cm in E. rewrite !offset_cons.
        replace (comp ax (sg_dims a) - 1 + (comp ax (sg_dims b) - 1 + offset ax l j))
          with (comp ax (sg_dims a) + (comp ax (sg_dims b) - 1) - 1 + offset ax l j) by lia. auto.
    + intros [|[|j]] y c Hy Hc; cbn [nth_error] in Hy.
      * injection Hy as <-. rewrite offset_0, shifted_0.
        pose proof (IG 0 m c eq_refl (Ia c Hc)) as E. rewrite offset_0, shifted_0 in E. rewrite E; auto.
      * injection Hy as <-. rewrite offset_cons, offset_0, Nat.add_0_r.
        pose proof (IG 0 m _ eq_refl (Ib c Hc)) as E. rewrite offset_0, shifted_0 in E. rewrite E; auto.
      * pose proof (IG (S j) y c Hy Hc) as E.
        rewrite offset_cons, Cm in E. rewrite !offset_cons.
        replace (comp ax (sg_dims a) - 1 + (comp ax (sg_dims b) - 1 + offset ax l j))
          with (comp ax (sg_dims a) + (comp ax (sg_dims b) - 1) - 1 + offset ax l j) by lia. auto.
Qed.

(* ---- definedness ---- *)
Lemma interface_after {D} ax (a b m x : sgrid D) : ax <= 2 ->
  wf_grid ax a -> wf_grid ax b -> wf_grid ax x -> merge2 ax a b = Ok m ->
  interface_ok ax m x <-> interface_ok ax b x.
Proof.
  intros Hax Wa Wb Wx Hm.
  destruct (merge2_points _ _ _ _ Wa Wb Hm) as (P1 & P2 & P3).
  destruct (merge2_inv _ _ _ _ Hm) as (He & _ & _ & _ & Hdm & _).
  apply wf_unfold in Wa as (_ & Ha & _). apply wf_unfold in Wb as (_ & Hb & _).
  assert (Cm : comp ax (sg_dims m) = comp ax (sg_dims a) + (comp ax (sg_dims b) - 1)).
  { rewrite Hdm. unfold mdims. apply comp_setc. }
  assert (Z : setc ax 0 (sg_dims m) = setc ax 0 (sg_dims b)).
  { rewrite Hdm. unfold mdims. rewrite setc_setc; auto. }
  assert (Z1 : setc ax 1 (sg_dims m) = setc ax 1 (sg_dims b)) by (apply setc_01; auto).
  unfold interface_ok. rewrite Z, Z1.
  assert (E : forall c, in_shape (setc ax 1 (sg_dims b)) c ->
     at_coord (sg_dims m) (sg_pts m) (setc ax (comp ax (sg_dims m) - 1) c)
     = at_coord (sg_dims b) (sg_pts b) (setc ax (comp ax (sg_dims b) - 1) c)).
  { intros c Hc. rewrite <- P2.
    - unfold shifted. rewrite comp_setc, setc_setc. f_equal. f_equal. lia.
    - apply in_slice; auto; lia.
    - rewrite comp_setc; lia. }
  split; intros [H1 H2]; split; auto; intros c p q Hc Hp Hq; apply (H2 c); auto;
    [rewrite E|rewrite <- E]; auto.
Qed.

Lemma merge_fold_defined {D} ax (a : sgrid D) l : ax <= 2 ->
  wf_grid ax a -> Forall (wf_grid ax) l ->
  (chain (interface_ok ax) (a :: l) <-> exists g, merge_fold ax a l = Ok g) /\
  (~ chain (interface_ok ax) (a :: l) -> merge_fold ax a l = Err ValueError).
Proof.
  intros Hax. revert a; induction l as [|b l IH]; intros a Wa Wl; simpl merge_fold.
  - split; [split; [eauto|simpl; auto]|]. intros N; destruct N; simpl; auto.
  - inversion Wl as [|? ? Wb Wl']; subst.
    destruct (merge2_ok ax a b Wa Wb) as [I1 I2].
    destruct (merge2 ax a b) as [m|e] eqn:Hm; cbn [bind].
    + pose proof (merge2_wf _ _ _ _ Hax Wa Wb Hm) as Wm.
      destruct (IH m Wm Wl') as [J1 J2].
      assert (E : chain (interface_ok ax) (m :: l) <-> chain (interface_ok ax) (b :: l)).
      { destruct l as [|x l]; [simpl; tauto|]. inversion Wl' as [|? ? Wx ?]; subst.
        change (interface_ok ax m x /\ chain (interface_ok ax) (x :: l) <->
                interface_ok ax b x /\ chain (interface_ok ax) (x :: l)).
        rewrite (interface_after ax a b m x); tauto. }
      change (chain (interface_ok ax) (a :: b :: l))
        with (interface_ok ax a b /\ chain (interface_ok ax) (b :: l)).
      assert (interface_ok ax a b) by (apply I1; eauto).
      rewrite <- E. tauto.
    + change (chain (interface_ok ax) (a :: b :: l))
        with (interface_ok ax a b /\ chain (interface_ok ax) (b :: l)).
      split.
      * split; [intros [H _]; apply I1 in H as [? ?]; discriminate|intros [? ?]; discriminate].
      * intros N. destruct e; try reflexivity; exfalso;
          assert (Hn : ~ interface_ok ax a b)
            by (intros H; apply I1 in H as [? ?]; discriminate);
          specialize (I2 Hn); discriminate.
Qed.
