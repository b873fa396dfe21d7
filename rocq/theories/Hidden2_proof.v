From Coq Require Import Sorted Lia.
From Verif Require Import Prelude Topo_model Volume_spec Topo_spec Topo_proof Topo2_proof Topo3_proof Topo4_proof Topo7_proof Agree_spec Agree_proof Hidden_spec Hidden_proof.
Open Scope nat_scope.

Definition real (row : list Z) : nat := length (filter (fun z => negb (z =? -1)%Z) row).
Lemma real_app a b : real (a ++ b) = real a + real b.
Proof. unfold real. now rewrite filter_app, app_length. Qed.
Lemma real_pad n : real (repeat (-1)%Z n) = 0.
Proof. unfold real. induction n; auto. Qed.
Lemma real_le r : real r <= length r.
Proof. unfold real. induction r as [|z r IH]; simpl; auto. destruct (negb (z =? -1)%Z); simpl; lia. Qed.
Lemma real_sel (sel : list (nat * list nat)) n : real (map (fun o => Z.of_nat (fst o)) sel ++ repeat (-1)%Z n) = length sel.
Proof. rewrite real_app, real_pad. unfold real. induction sel as [|o sel IH]; [reflexivity|]. cbn [map filter]. destruct (Z.eqb_spec (Z.of_nat (fst o)) (-1)); [lia|]. cbn [negb length Nat.add] in *. lia. Qed.

Lemma last_In (l : list Z) d : l <> [] -> In (last l d) l.
Proof. induction l as [|x [|y l] IH]; intros H; [congruence|now left|]. right. apply IH. discriminate. Qed.

Section Kept.
Context (nonzero : list nat -> bool) (faces : list (list (list nat))) (g0 g : geom) (m : nat).
Context (Hinv : forall f f', same_set f f' -> nonzero f = nonzero f') (Ho : lists_once (incidences faces) g0).
Context (Hrows : map (fun r => r ++ repeat (-1)%Z m) (g_rows g) = map snd (filter (fun fr => nonzero (fst fr)) (combine (g_faces g0) (g_rows g0)))).

Lemma kept_rows row : In row (g_rows g) <-> exists k f, nth_error (g_faces g0) k = Some f /\ nth_error (g_rows g0) k = Some (row ++ repeat (-1)%Z m) /\ nonzero f = true.
Proof.
  split.
  - intros Hin. assert (Hin' : In (row ++ repeat (-1)%Z m) (map (fun r => r ++ repeat (-1)%Z m) (g_rows g))) by (apply in_map_iff; eauto).
    rewrite Hrows in Hin'. apply in_map_iff in Hin' as ((f, r0) & Er0 & Hf). apply filter_In in Hf as (Hc & Hnz). apply In_combine_nth in Hc as (k & K1 & K2). cbn in *. subst r0. exists k, f. auto.
  - intros (k & f & K1 & K2 & Hnz). assert (Hin' : In (row ++ repeat (-1)%Z m) (map (fun r => r ++ repeat (-1)%Z m) (g_rows g))).
    { rewrite Hrows. apply in_map_iff. exists (f, row ++ repeat (-1)%Z m). split; [reflexivity|]. apply filter_In. split; [apply In_combine_nth; eauto|exact Hnz]. }
    apply in_map_iff in Hin' as (row' & Er' & Hin'). apply app_inv_tail in Er'. now subst row'.
Qed.
Lemma kept_padded k f r0 : nth_error (g_faces g0) k = Some f -> nth_error (g_rows g0) k = Some r0 -> nonzero f = true -> exists row, r0 = row ++ repeat (-1)%Z m /\ In row (g_rows g).
Proof.
  intros K1 K2 Hnz. assert (Hin' : In r0 (map (fun r => r ++ repeat (-1)%Z m) (g_rows g))).
  { rewrite Hrows. apply in_map_iff. exists (f, r0). split; [reflexivity|]. apply filter_In. split; [apply In_combine_nth; eauto|exact Hnz]. }
  apply in_map_iff in Hin' as (row & <- & Hin). eauto.
Qed.

Lemma used_kept_row k : 0 < k -> used_kept nonzero k faces <-> exists row, In row (g_rows g) /\ k <= real row.
Proof.
  intros Hk. split.
  - intros (ps & f & Hlen & Hnd & Hnz & Hall). destruct ps as [|p ps]; [simpl in Hlen; lia|].
    destruct (Hall p) as (i & h & Hp & Hs); [simpl; auto|]. destruct (once_find _ _ _ _ _ Ho Hp) as (j & h0 & r0 & Hj1 & Hj2 & Hs2).
    assert (Hnz0 : nonzero h0 = true) by (rewrite <- (Hinv h h0 Hs2), (Hinv h f Hs); exact Hnz).
    destruct (kept_padded _ _ _ Hj1 Hj2 Hnz0) as (row & E0 & Hin). exists row. split; [exact Hin|].
    destruct (once_row _ _ _ _ Ho Hj2) as (f' & qs & sel & n & Ef & Er & Hsel & Hsort & F & Hiff).
    assert (R : real row = length sel) by (rewrite <- (real_sel sel n), <- Er, E0, real_app, real_pad; lia).
    rewrite R, <- (Forall2_len _ _ _ F), <- Hlen. apply NoDup_incl_length; auto. intros q Hq.
    destruct (Hall q Hq) as (i' & h' & Hq' & Hs'). apply (Hiff _ _ Hq'); simpl. assert (f' = h0) as -> by congruence.
    intros x. rewrite (Hs' x), <- (Hs x). apply Hs2.
  - intros (row & Hrow & Hlen). apply kept_rows in Hrow as (j & f & K1 & K2 & Hnz).
    destruct (once_row _ _ _ _ Ho K2) as (f' & qs & sel & n & Ef & Er & Hsel & Hsort & F & Hiff). rewrite K1 in Ef. injection Ef as <-.
    assert (R : real row = length sel) by (rewrite <- (real_sel sel n), <- Er, real_app, real_pad; lia).
    rewrite R in Hlen. exists (firstn k qs), f. apply sorted_lt_NoDup in Hsort. pose proof (Forall2_len _ _ _ F).
    assert (Hpre : forall p, In p (firstn k qs) -> In p qs) by (intros p Hp; rewrite <- (firstn_skipn k qs); apply in_or_app; auto).
    split; [rewrite firstn_length; lia|]. split; [|split; [exact Hnz|]].
    + rewrite <- (firstn_skipn k qs) in Hsort. clear -Hsort. revert Hsort.
      generalize (firstn k qs) (skipn k qs). induction l as [|x l IH]; intros l' Hn; [constructor|].
      inversion Hn; subst. constructor; [intros Hin; apply H1; apply in_or_app; auto|eapply IH; eauto].
    + intros p Hp. apply Hpre in Hp as Hp2. apply In_nth_error in Hp2 as [a Ha].
      destruct (Forall2_nth_error _ _ _ _ _ F Ha) as ([i h] & Hs & Ho'). exists i, h; split; auto. apply (Hiff _ _ Ho'); auto.
Qed.
End Kept.

(* columns that are kept vary: one of the last has an id *)
Lemma drop_full nonzero g0 g w : common_width w g0 -> drop_collapsed nonzero g0 = Ok g ->
  (exists w', forall r, In r (g_rows g) -> length r = w') /\ exists r, In r (g_rows g) /\ (r = [] \/ last r 0%Z <> (-1)%Z).
Proof.
  intros [Hw (rf & Hrf & Hfull)] H. unfold drop_collapsed in H. destruct (forallb _ _).
  { apply Ok_inj in H. subst g. split; [eauto|]. exists rf. split; [exact Hrf|]. destruct rf as [|z rf]; [now left|right]. intros E. apply Hfull. rewrite <- E. apply last_In. discriminate. }
  remember (mask_get (map nonzero (g_faces g0)) (g_rows g0)) as rows eqn:E. destruct rows as [|r0 rs]; [discriminate|].
  set (rows := r0 :: rs) in *. remember (filter (fun j => negb (constant (column rows j))) (seq 0 (length r0))) as keep eqn:Ek in H.
  apply Ok_inj in H. subst g. cbn [g_rows]. split; [exists (length keep); intros r Hr; apply in_map_iff in Hr as (r1 & <- & _); apply map_length|].
  destruct (rev keep) as [|j keep'] eqn:Er.
  { assert (keep = []) as -> by (rewrite <- (rev_involutive keep), Er; reflexivity). eexists. split; [left; reflexivity|now left]. }
  assert (Kj : keep = rev keep' ++ [j]) by (rewrite <- (rev_involutive keep), Er; reflexivity).
  assert (Cj : constant (column rows j) = false).
  { assert (Hj : In j keep) by (rewrite Kj; apply in_or_app; right; now left). rewrite Ek in Hj. apply filter_In in Hj as (_ & Hj). now apply negb_true_iff in Hj. }
  assert (X : exists r, In r rows /\ nth j r (-1)%Z <> (-1)%Z).
  { unfold column in Cj. subst rows. cbn [map constant] in Cj. destruct (Z.eq_dec (nth j r0 (-1)%Z) (-1)%Z) as [E0|N0]; [|exists r0; split; [now left|exact N0]].
    rewrite E0 in Cj. clear -Cj. induction rs as [|r rs IH]; [discriminate|]. cbn [map forallb] in Cj. destruct (Z.eqb_spec (-1)%Z (nth j r (-1)%Z)) as [Er|Nr].
    - destruct (IH Cj) as (r' & [<-|Hr'] & N); [exists r0; split; [now left|exact N]|exists r'; split; [cbn; auto|exact N]].
    - exists r. split; [cbn; auto|congruence]. }
  destruct X as (r & Hr & N). exists (map (fun j => nth j r (-1)%Z) keep). split; [apply in_map_iff; exists r; split; [reflexivity|exact Hr]|]. right. rewrite Kj, map_app. cbn [map]. rewrite last_last. exact N.
Qed.

Theorem kept_defined nonzero d g : wf_mesh (cast d) -> extract_cell_geometry nonzero true d = Ok g ->
  (forall f f', same_set f f' -> nonzero f = nonzero f') ->
  exists n faces g0 w, get_dimension d = Ok n /\ mesh_faces true (cast d) n faces /\
    lists_once (incidences faces) g0 /\ common_width w g0 /\
    (varied nonzero g0 ->
     ((exists nb, get_neighborhood nonzero true d = Ok nb) <-> used_kept nonzero 2 faces /\ ~ used_kept nonzero 3 faces)).
Proof.
  intros W E Hinv. destruct (geometry_varied _ _ _ W E) as (n & faces & g0 & w & H1 & H2 & Ho & Hw & H4 & H3). exists n, faces, g0, w. do 4 (split; [assumption|]). intros C1.
  destruct (H3 C1) as (_ & m & Hrows).
  pose proof (extracted_bounded _ _ _ _ W E) as B. destruct (drop_full _ _ _ _ Hw H4) as ((w' & Hw') & rf & Hrf & Hlast).
  assert (Hrl : real rf = length rf).
  { destruct Hlast as [->|Hl]; [reflexivity|]. pose proof Hrf as Hrf'. apply (kept_rows nonzero g0 g m Hrows) in Hrf' as (k & f & _ & K2 & _).
    apply nth_error_In in K2. destruct (once_row_form _ _ _ Ho K2) as (ids & p & Er & _). clear -Er Hl.
    revert ids Er. induction rf as [|z rf IH]; intros ids Er; [reflexivity|]. destruct ids as [|i ids].
    - exfalso. cbn [map app] in Er. assert (A : forall x, In x (z :: rf) -> x = (-1)%Z) by (intros x Hx; apply (repeat_spec p); rewrite <- Er; change (In x ((z :: rf) ++ repeat (-1)%Z m)); apply in_or_app; now left). apply Hl, A, last_In. discriminate.
    - cbn in Er. injection Er as -> Er. unfold real in *. cbn [filter]. destruct (Z.eqb_spec (Z.of_nat i) (-1)); [lia|]. cbn [negb length]. f_equal.
      destruct rf as [|y rf]; [reflexivity|]. apply (IH ltac:(exact Hl) ids Er). }
  rewrite (used_kept_row nonzero faces g0 g m Hinv Ho Hrows 2), (used_kept_row nonzero faces g0 g m Hinv Ho Hrows 3) by lia.
  unfold get_neighborhood. rewrite E. cbn [bind]. split.
  - intros [nb H]. apply neighbor_loop_Ok in H as (_ & Hr2 & _). split.
    + exists rf. split; [exact Hrf|]. rewrite Hrl, (Hr2 rf Hrf). lia.
    + intros (row & Hrow & L3). pose proof (real_le row). rewrite (Hr2 row Hrow) in *. lia.
  - intros [(row & Hrow & L2) N3]. assert (w' = 2).
    { pose proof (real_le row). rewrite (Hw' row Hrow) in *. destruct (Nat.le_gt_cases 3 w'); [|lia]. exfalso. apply N3. exists rf. split; [exact Hrf|]. rewrite Hrl, (Hw' rf Hrf). lia. }
    subst w'. apply neighbor_loop_def. intros r Hr. split; [auto|]. rewrite repeat_length. intros z Hz. eapply B; eauto.
Qed.
