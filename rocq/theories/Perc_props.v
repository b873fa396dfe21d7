(* Properties C01-C05: subdivisions, lines and arcs. *)
From Verif Require Import Perc_model Perc_spec Perc_proof.
Open Scope R_scope.

(* C01 *)
Theorem C01_int_resolution_proper :
  forall z m g, names_method m g ->
  exists p, resolution_to_perc (ResInt z) m = Ok p /\
            proper_subdivision (Z.to_nat (Z.max 1 z)) p.
Proof. exact perc_proper. Qed.
Print Assumptions C01_int_resolution_proper.
Example C01_case : names_method (Some "log"%string) Log /\ Z.to_nat (Z.max 1 7) = 7%nat
  /\ Z.to_nat (Z.max 1 (-3)) = 1%nat.
Proof. repeat split; constructor. Qed.

Theorem C01_invalid_method_rejected :
  forall z m, (forall g, ~ names_method m g) ->
  resolution_to_perc (ResInt z) m = Err ValueError.
Proof. exact perc_bad_method. Qed.
Print Assumptions C01_invalid_method_rejected.
Example C01_bad_case : forall g, ~ names_method (Some "linear"%string) g.
Proof. intros g H; inversion H. Qed.

Theorem C01_none_is_one :
  forall m, resolution_to_perc ResNone m = resolution_to_perc (ResInt 1) m.
Proof. exact perc_none. Qed.
Print Assumptions C01_none_is_one.

(* C02 *)
Theorem C02_constant_gaps_equal :
  forall z m p i d, names_method m Constant -> resolution_to_perc (ResInt z) m = Ok p ->
  gap p i d -> d = 1 / IZR (Z.max 1 z).
Proof. exact constant_gaps. Qed.
Print Assumptions C02_constant_gaps_equal.
Example C02_constant_case : exists p d, resolution_to_perc (ResInt 4) None = Ok p /\ gap p 3 d /\ d = 1 / 4.
Proof.
  destruct (perc_proper 4 None Constant ltac:(constructor)) as (p & Hp & Hl & _). cbn in Hl.
  destruct (nth_error p 3) as [x|] eqn:Hx; [|apply nth_error_None in Hx; lia].
  destruct (nth_error p 4) as [y|] eqn:Hy; [|apply nth_error_None in Hy; lia].
  exists p, (y - x). split; [exact Hp|]. assert (Hg : gap p 3 (y - x)) by (exists x, y; auto).
  split; [exact Hg|]. exact (C02_constant_gaps_equal 4 None p 3 (y - x) ltac:(constructor) Hp Hg).
Qed.

Theorem C02_log_gaps_increase :
  forall z m p i j d e, names_method m Log -> resolution_to_perc (ResInt z) m = Ok p ->
  (i < j)%nat -> gap p i d -> gap p j e -> d < e.
Proof. exact log_gaps_increase. Qed.
Print Assumptions C02_log_gaps_increase.

Theorem C02_logr_gaps_decrease :
  forall z m p i j d e, names_method m LogR -> resolution_to_perc (ResInt z) m = Ok p ->
  (i < j)%nat -> gap p i d -> gap p j e -> e < d.
Proof. exact logr_gaps_decrease. Qed.
Print Assumptions C02_logr_gaps_decrease.

Theorem C02_log_is_mirror_of_logr :
  forall z m m' p q, names_method m Log -> names_method m' LogR ->
  resolution_to_perc (ResInt z) m = Ok p ->
  resolution_to_perc (ResInt z) m' = Ok q -> mirrored p q.
Proof. exact log_logr_mirrored. Qed.
Print Assumptions C02_log_is_mirror_of_logr.

(* gaps exist: a resolution of 3 has gaps 0, 1 and 2 *)
Example C02_case : exists p, resolution_to_perc (ResInt 3) (Some "log"%string) = Ok p /\
  (exists d, gap p 0 d) /\ (exists d, gap p 2 d).
Proof.
  destruct (perc_proper 3 (Some "log"%string) Log ltac:(constructor)) as (p & Hp & Hl & _).
  exists p; split; [exact Hp|]. change (Z.to_nat (Z.max 1 3)) with 3%nat in Hl.
  assert (forall i, (i < 3)%nat -> exists d, gap p i d) as H.
  { intros i Hi. destruct (nth_error p i) as [x|] eqn:Hx;
      [|apply nth_error_None in Hx; lia].
    destruct (nth_error p (S i)) as [y|] eqn:Hy; [|apply nth_error_None in Hy; lia].
    exists (y - x), x, y; auto. }
  split; apply H; lia.
Qed.

(* C03 *)
Theorem C03_array_sorted_permutation :
  forall l m, exists p, resolution_to_perc (ResArr l) m = Ok p /\ Permutation l p /\
                        StronglySorted Rle p.
Proof. exact perc_array. Qed.
Print Assumptions C03_array_sorted_permutation.
Example C03_case : exists p, resolution_to_perc (ResArr [1; 1 / 3; 0]) None = Ok p /\ In (1 / 3) p /\ StronglySorted Rle p.
Proof.
  destruct (C03_array_sorted_permutation [1; 1 / 3; 0] None) as (p & Hp & HP & HS). exists p. split; [exact Hp|].
  split; [|exact HS]. apply (Permutation_in _ HP). simpl; auto.
Qed.

Theorem C03_other_rejected : forall m, resolution_to_perc ResOther m = Err ValueError.
Proof. exact (fun m => eq_refl). Qed.
Print Assumptions C03_other_rejected.

(* C04 *)
Theorem C04_line_on_segment :
  forall a b r m pts, generate_line_from_two_points a b r m = Ok pts ->
  (length a = length b /\ (length a = 2 \/ length a = 3))%nat /\
  exists p, resolution_to_perc r m = Ok p /\ Forall2 (on_segment_at a b) p pts.
Proof. exact line_points. Qed.
Print Assumptions C04_line_on_segment.
Example C04_segment_case : exists pts, generate_line_from_two_points [0; 1] [2; 5] (ResArr [0; 1 / 2; 1]) None = Ok pts /\
  length pts = 3%nat.
Proof.
  assert (HL : exists pts, generate_line_from_two_points [0; 1] [2; 5] (ResArr [0; 1 / 2; 1]) None = Ok pts).
  { destruct (perc_array [0; 1 / 2; 1] None) as (p & Hp & HP & _).
    apply (line_defined _ _ _ _ p Hp); simpl; auto. apply Permutation_length in HP. simpl in HP. lia. }
  destruct HL as [pts H]. exists pts. split; [exact H|].
  destruct (C04_line_on_segment _ _ _ _ _ H) as (_ & p & Hp & HF). apply Forall2_len in HF.
  destruct (perc_array [0; 1 / 2; 1] None) as (p' & Hp' & HP & _). rewrite Hp in Hp'. injection Hp' as <-.
  apply Permutation_length in HP. simpl in HP. lia.
Qed.

Theorem C04_line_endpoints :
  forall a b z m g pts, names_method m g ->
  generate_line_from_two_points a b (ResInt z) m = Ok pts ->
  length pts = S (Z.to_nat (Z.max 1 z)) /\
  (exists c, nth_error pts 0 = Some c /\
             forall k x, nth_error a k = Some x -> nth_error c k = Some x) /\
  (exists c, nth_error pts (Z.to_nat (Z.max 1 z)) = Some c /\
             forall k y, nth_error b k = Some y -> nth_error c k = Some y).
Proof. exact line_ends. Qed.
Print Assumptions C04_line_endpoints.
Example C04_ends_case : exists pts, generate_line_from_two_points [0; 1] [2; 5] (ResInt 3) (Some "log"%string) = Ok pts /\
  length pts = 4%nat.
Proof.
  destruct (line_ok [0; 1] [2; 5] 3 (Some "log"%string) Log) as [pts H]; [constructor|reflexivity|simpl; auto|].
  exists pts. split; [exact H|]. exact (proj1 (C04_line_endpoints _ _ _ _ Log _ ltac:(constructor) H)).
Qed.

Theorem C04_line_defined :
  forall a b z m g, names_method m g -> length a = length b ->
  (length a = 2 \/ length a = 3)%nat ->
  exists pts, generate_line_from_two_points a b (ResInt z) m = Ok pts.
Proof. exact line_ok. Qed.
Print Assumptions C04_line_defined.
Example C04_case : length [0; 1] = length [2; 5] /\ (length [0; 1] = 2 \/ length [0; 1] = 3)%nat.
Proof. simpl; auto. Qed.

Theorem C04_defined_iff :
  forall a b r m p, resolution_to_perc r m = Ok p -> length a = length b ->
  (length a = 2 \/ length a = 3)%nat ->
  (exists pts, generate_line_from_two_points a b r m = Ok pts) <-> (2 <= length p)%nat.
Proof. exact line_defined. Qed.
Print Assumptions C04_defined_iff.
Example C04_undefined_case : ~ exists pts, generate_line_from_two_points [0; 1] [2; 5] (ResArr [1 / 2]) None = Ok pts.
Proof.
  destruct (perc_array [1 / 2] None) as (p & Hp & HP & _). intros H.
  apply (C04_defined_iff _ _ _ _ p Hp) in H; simpl; auto. apply Permutation_length in HP. simpl in HP. lia.
Qed.

Theorem C04_shape_mismatch_rejected :
  forall a b r m, length a <> length b ->
  generate_line_from_two_points a b r m = Err ValueError.
Proof. exact line_shape_error. Qed.
Print Assumptions C04_shape_mismatch_rejected.
Example C04_mismatch_case : generate_line_from_two_points [0; 1] [2; 5; 7] (ResInt 2) None = Err ValueError.
Proof. apply C04_shape_mismatch_rejected. discriminate. Qed.

(* C05 *)
Theorem C05_arc_on_circle :
  forall radius t0 t1 r m pts, generate_arc radius t0 t1 r m = Ok pts ->
  (exists p, resolution_to_perc r m = Ok p /\ length pts = length p) /\
  Forall (fun q => let '(x, y, z) := q in z = 0 /\ sqrt (x * x + y * y) = Rabs radius) pts.
Proof. exact arc_on_circle. Qed.
Print Assumptions C05_arc_on_circle.
Example C05_circle_case : exists pts, generate_arc 2 0 90 (ResInt 3) None = Ok pts /\ length pts = 4%nat.
Proof. destruct (arc_ends 2 0 90 3 None Constant ltac:(constructor)) as (pts & H & L & _). eauto. Qed.

Theorem C05_arc_ends :
  forall radius t0 t1 z m g, names_method m g ->
  exists pts, generate_arc radius t0 t1 (ResInt z) m = Ok pts /\
  length pts = S (Z.to_nat (Z.max 1 z)) /\
  nth_error pts 0 =
    Some (radius * cos (t0 * PI / 180), radius * sin (t0 * PI / 180), 0) /\
  nth_error pts (Z.to_nat (Z.max 1 z)) =
    Some (radius * cos (t1 * PI / 180), radius * sin (t1 * PI / 180), 0).
Proof. exact arc_ends. Qed.
Print Assumptions C05_arc_ends.

Theorem C05_arc_points :
  forall radius t0 t1 r m p, resolution_to_perc r m = Ok p ->
  ((exists pts, generate_arc radius t0 t1 r m = Ok pts) <-> (2 <= length p)%nat) /\
  forall pts, generate_arc radius t0 t1 r m = Ok pts -> length pts = length p /\
    forall k s, nth_error p k = Some s -> exists a, a = (t0 + s * (t1 - t0)) * PI / 180 /\
      nth_error pts k = Some (radius * cos a, radius * sin a, 0).
Proof. exact arc_points. Qed.
Print Assumptions C05_arc_points.
Example C05_case : exists p, resolution_to_perc (ResArr [1 / 2; 0; 1]) None = Ok p /\ length p = 3%nat.
Proof.
  eexists. split; [reflexivity|]. rewrite <- (Permutation_length (np_sort_perm _)). reflexivity.
Qed.
