From Coq Require Import Reals Lra Lia Permutation.
From Verif Require Import Prelude RealAux Surface_model Volume_model Objects_model Cast_model Cast_spec
  Cast1_proof Cast2_proof Cast3_proof Cast4_proof Cast5_proof Trip_spec Trip_proof.
Open Scope R_scope.

Lemma dist_px a b : dist (px a) (px b) = Rabs (a - b).
Proof.
  unfold dist, px. cbn. rewrite <- sqrt_Rsqr_abs. f_equal. unfold Rsqr. ring.
Qed.
Ltac spread := cbn [spaced firstn app map point_of fst snd labelled outside]; repeat match goal with |- _ /\ _ => split | |- True => exact I end; try (rewrite dist_px; num); unfold far, px; left; num.
Ltac distinct := intros H; repeat (destruct H as [H|H]); try contradiction; unfold px in H; injection H; intros; lra.
Ltac crosses r f :=
  split; [rewrite dist_px; num|]; split; [discriminate|]; split; [cbn [In]; distinct|];
  exists r, f; split; [ev; reflexivity|]; split; [cbn [map fst]; apply Permutation_refl|];
  split; [cbn; auto|cbn; apply Permutation_refl].

Lemma three_cells :
  trip (row [0; 1; 2; 3]) (/ 10000) (px (5 / 2)) [px (-1); px (3 / 2); px (5 / 2)] 0 (px 0) 0
    [(px 1, 0%nat, 0%Z); (px 2, 1%nat, 1%Z); (px (5 / 2), 1%nat, 2%Z)] [] /\
  spaced (/ 100000000) (/ 10000) [px (-1); px 0; px 1; px 2; px (5 / 2)].
Proof.
  split.
  - split; [reflexivity|]. split; [lia|]. exists (px (-1)), (px (3 / 2)). split; [reflexivity|]. split; [reflexivity|].
    split; [ev; auto|]. split.
    { intros i Hi Hne. ev. revert Hi. ev. intros [<-|[<-|[]]]; [contradiction|]. rewrite !dist_px. ev. num. }
    split.
    { intros x (r & Hr & Hp). revert Hr. ev. intros [= <-]. cbn [map fst] in Hp. apply Permutation_cons_inv, Permutation_length_1 in Hp. subst x. rewrite !dist_px. num. }
    split.
    { intros _ (r & Hr & Hp). revert Hr. ev. intros [= <-]. apply Permutation_length in Hp. discriminate. }
    cbn [skipn].
    change [(px 1, 0%nat, 0%Z); (px 2, 1%nat, 1%Z); (px (5 / 2), 1%nat, 2%Z)]
      with (labelled 0 [(px 1, 0%Z)] ++ [(px 2, 1%nat, 1%Z); (px (5 / 2), 1%nat, 2%Z)]).
    eapply further with (d := 1%Z); [|discriminate|].
    + eapply moves with (d := 1%Z); [crosses [(px 0, 0%nat); (px 1, 1%nat)] 1%nat|discriminate|discriminate|].
      apply stays; [reflexivity|]. eexists. split; [ev; reflexivity|]. cbn. apply Permutation_refl.
    + change [(px 2, 1%nat, 1%Z); (px (5 / 2), 1%nat, 2%Z)] with (labelled 1 [(px 2, 1%Z); (px (5 / 2), 2%Z)]).
      eapply at_end with (d := 2%Z); [|discriminate].
      apply reaches; [reflexivity|crosses [(px 2, 2%nat)] 2%nat|discriminate|ev; reflexivity].
  - spread.
Qed.

Lemma unlabelled xs ps cs k p q : nth_error ps k = Some (px p) -> nth_error ps (S k) = Some (px q) -> nth_error cs k = Some (-1)%Z ->
  in_cell xs 0 ((p + q) / 2) -> ~ right_labels xs ps cs.
Proof.
  intros Hp Hq Hc Hin H. specialize (H _ _ _ _ Hp Hq Hc). unfold right_label in H. rewrite !coord_px in H.
  destruct H as [[_ H]|(k' & E & _)]; [|lia]. exact (H _ Hin).
Qed.

Lemma nearest_wrong : exists far pts, forall fuel, (2 <= fuel)%nat ->
  let o := mkO nat (find (row [0; 1; 2])) (fun k => if (k =? 0)%nat then far else center (row [0; 1; 2]) k)
             (cast (row [0; 1; 2])) (sides (row [0; 1; 2])) (contains (row [0; 1; 2])) in
  exists ps ls cs, crossings o (/ 10000) (/ 100000000) false fuel false pts = Some (Ok (ps, ls, cs)) /\ ~ right_labels [0; 1; 2] ps cs.
Proof.
  exists (/ 2, 10, 0), [px (- / 2); px 3]. intros fuel Hf o.
  assert (T : trip o (/ 10000) (px 3) [px (- / 2); px 3] 0 (px 1) 1 (labelled 0 [(px 2, 1%Z)]) (outside 0 [px 3])).
  { split; [reflexivity|]. split; [lia|]. exists (px (- / 2)), (px 3). split; [reflexivity|]. split; [reflexivity|].
    split; [unfold o; ev; auto|]. split.
    { intros i Hi Hne. revert Hi. unfold o. ev. intros [<-|[<-|[]]]; [|contradiction]. ev.
      rewrite dist_px. unfold dist, px. rewrite <- sqrt_Rsqr_abs. apply sqrt_lt_1; unfold Rsqr; lra. }
    split.
    { intros x (r & Hr & Hp). revert Hr. unfold o. ev. intros [= <-]. cbn [map fst] in Hp. apply Permutation_cons_inv, Permutation_length_1 in Hp. subst x. rewrite !dist_px. num. }
    split.
    { intros _ (r & Hr & Hp). revert Hr. unfold o. ev. intros [= <-]. apply Permutation_length in Hp. discriminate. }
    cbn [skipn]. apply at_exit. apply goes_out. unfold o. crosses [(px 1, 1%nat); (px 2, 2%nat)] 2%nat. }
  pose proof (trip_crossings o (/ 10000) (/ 100000000) _ _ _ _ _ _ _ ltac:(lra) T ltac:(spread) false false fuel Hf) as E.
  cbv zeta in E. do 3 eexists. split; [exact E|].
  apply (unlabelled _ _ _ 0 (- / 2) 1); [reflexivity|reflexivity|reflexivity|]. unfold in_cell, bound. cbn. split; [lra|lia].
Qed.

Lemma reentry_wrong : exists pts, forall fuel, (3 <= fuel)%nat ->
  exists ps ls cs, crossings (row [0; 1; 2]) (/ 10000) (/ 100000000) false fuel false pts = Some (Ok (ps, ls, cs)) /\
  ~ right_labels [0; 1; 2] ps cs.
Proof.
  exists [px (-1); px 3; px (-2)]. intros fuel Hf.
  assert (T : trip (row [0; 1; 2]) (/ 10000) (px (-2)) [px (-1); px 3; px (-2)] 0 (px 0) 0 (labelled 0 [(px 1, 0%Z); (px 2, 1%Z)]) (outside 0 [px 3; px (-2)])).
  { split; [reflexivity|]. split; [lia|]. exists (px (-1)), (px 3). split; [reflexivity|]. split; [reflexivity|].
    split; [ev; auto|]. split.
    { intros i Hi Hne. revert Hi. ev. intros [<-|[<-|[]]]; [contradiction|]. ev. rewrite !dist_px. num. }
    split.
    { intros x (r & Hr & Hp). revert Hr. ev. intros [= <-]. cbn [map fst] in Hp. apply Permutation_cons_inv, Permutation_length_1 in Hp. subst x. rewrite !dist_px. num. }
    split.
    { intros _ (r & Hr & Hp). revert Hr. ev. intros [= <-]. apply Permutation_length in Hp. discriminate. }
    cbn [skipn]. apply at_exit.
    eapply moves with (d := 1%Z); [crosses [(px 0, 0%nat); (px 1, 1%nat)] 1%nat|discriminate|discriminate|].
    apply goes_out. crosses [(px 1, 1%nat); (px 2, 2%nat)] 2%nat. }
  pose proof (trip_crossings _ (/ 10000) (/ 100000000) _ _ _ _ _ _ _ ltac:(lra) T ltac:(spread) false false fuel Hf) as E.
  cbv zeta in E. do 3 eexists. split; [exact E|].
  apply (unlabelled _ _ _ 4 3 (-2)); [reflexivity|reflexivity|reflexivity|]. unfold in_cell, bound. cbn. split; [lra|lia].
Qed.
