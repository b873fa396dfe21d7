From Coq Require Import Reals Lra.
From Verif Require Import Prelude Perc_model Perc_spec Perc_proof Grid Surface_model Surface_spec Surface_proof
  Volume_model Objects_model Objects_spec.
Open Scope R_scope.

Lemma add3_0 p : add3 p (0, 0, 0) = p.
Proof. destruct p as ((x, y), z). cbn. f_equal; [f_equal|]; ring. Qed.

Lemma translate_ok pts v c : offset v c -> translate pts v = Ok (map (fun p => add3 p c) pts).
Proof.
  intros [|x y|x y z]; try reflexivity. cbn [translate]. f_equal. rewrite <- (map_id pts) at 1.
  apply map_ext. intros p. now rewrite add3_0.
Qed.

Lemma translate_bad pts v : (forall c, ~ offset v c) -> translate pts v = Err ValueError.
Proof.
  intros H. destruct v as [[|x [|y [|z [|w l]]]]|]; try reflexivity; exfalso.
  - apply (H _ (off_two x y)).
  - apply (H _ (off_three x y z)).
  - apply (H _ off_none).
Qed.

Lemma sg_translate_ok {D} (g : sgrid D) v c : offset v c -> exists g', sg_translate g v = Ok g' /\
  sg_dims g' = sg_dims g /\ length (sg_pts g') = length (sg_pts g) /\
  (forall k, nth_error (sg_pts g') k = option_map (fun p => add3 p c) (nth_error (sg_pts g) k)) /\
  sg_ghost g' = sg_ghost g /\ sg_pd g' = sg_pd g /\ sg_cd g' = sg_cd g.
Proof.
  intros O. unfold sg_translate. rewrite (translate_ok _ _ _ O). cbn [bind]. eexists. split; [reflexivity|].
  cbn [sg_dims sg_pts sg_ghost sg_pd sg_cd]. split; [reflexivity|]. split; [apply map_length|].
  split; [|auto]. intros k. apply nth_error_map.
Qed.

Lemma sg_translate_bad {D} (g : sgrid D) v : (forall c, ~ offset v c) -> sg_translate g v = Err ValueError.
Proof. intros H. unfold sg_translate. now rewrite translate_bad. Qed.

Lemma node_translate {D} (g g' : sgrid D) c : sg_dims g' = sg_dims g ->
  (forall k, nth_error (sg_pts g') k = option_map (fun p => add3 p c) (nth_error (sg_pts g) k)) ->
  forall i j, node g' i j = option_map (fun p => add3 p c) (node g i j).
Proof. intros E H i j. unfold node, at_coord. rewrite E. apply H. Qed.

Lemma surface_ok areas a b s p : length a = length b -> subdivides s p ->
  exists g, StructuredSurface areas (Some a) (Some b) "xy" s = Ok g /\
    sg_dims g = (length a, length p, 1%nat) /\ length (sg_pts g) = (length a * length p)%nat /\
    sg_pd g = [] /\ sg_cd g = [] /\ length (sg_ghost g) = n_cells (sg_dims g) /\
    (forall i j P Q t, nth_error a i = Some P -> nth_error b i = Some Q -> nth_error p j = Some t ->
     node g i j = Some (lerp t P Q)).
Proof.
  intros L Hp. unfold StructuredSurface.
  assert (exists g : sgrid unit, generate_surface_from_two_lines areas (LineArr a) (LineArr b) "xy" (sb_res s) (sb_method s) = Ok g
          /\ sg_pd g = [] /\ sg_cd g = [] /\ length (sg_ghost g) = n_cells (sg_dims g)) as (g & Hg & E1 & E2 & E3).
  { unfold generate_surface_from_two_lines. cbn [get_points bind]. rewrite <- L, Nat.eqb_refl. cbn [negb].
    unfold subdivides in Hp. rewrite Hp. cbn [bind].
    destruct (surface_points "xy" a b p) as [[dims pts]|] eqn:E.
    - cbn [bind]. eexists. split; [reflexivity|]. split; [reflexivity|]. split; [reflexivity|].
      cbn [sg_ghost sg_dims]. now rewrite mask_set_length, repeat_length.
    - destruct (surface_points_defined "xy" 0 1 a b p ltac:(constructor)) as (d & E'). congruence. }
  exists g. split; [exact Hg|].
  destruct (surface_coords _ _ _ _ _ _ _ Hg) as (pa & pb & perc & ax & bx & Ea & Eb & _ & Ep & Pl & Hd & Hl & Hn).
  cbn in Ea, Eb. injection Ea as <-. injection Eb as <-. unfold subdivides in Hp. rewrite Hp in Ep. injection Ep as <-.
  inversion Pl; subst ax bx. cbn in Hd. split; [exact Hd|]. split; [exact Hl|]. split; [exact E1|]. split; [exact E2|]. split; [exact E3|].
  intros i j P Q t HP HQ Ht. specialize (Hn i j P Q t HP HQ Ht). cbn in Hn. unfold node. exact Hn.
Qed.

Lemma surface_coords' areas a b s g : StructuredSurface areas (Some a) (Some b) "xy" s = Ok g ->
  length a = length b /\ exists p, subdivides s p.
Proof.
  intros H. unfold StructuredSurface in H. apply surface_inv in H as (pa & pb & p & Ea & Eb & L & Hp & _).
  cbn in Ea, Eb. injection Ea as <-. injection Eb as <-. split; [exact L|]. now exists p.
Qed.

(* ---------- annular sectors ---------- *)

Lemma polar_arc radius t0 t1 s p : subdivides s p -> (2 <= length p)%nat ->
  exists pts, generate_arc radius t0 t1 (sb_res s) (sb_method s) = Ok pts /\ length pts = length p /\
    forall k t, nth_error p k = Some t -> nth_error pts k = Some (polar (0, 0, 0) radius (t0 + t * (t1 - t0))).
Proof.
  intros Hp L. destruct (arc_points radius t0 t1 _ _ _ Hp) as (D & S).
  destruct (proj2 D L) as (pts & E). exists pts. split; [exact E|]. destruct (S _ E) as (Lp & N). split; [exact Lp|].
  intros k t Ht. destruct (N k t Ht) as (a & -> & ->). unfold polar, degrees. now rewrite !Rplus_0_l.
Qed.

Lemma polar_lerp t r r' a : lerp t (polar (0, 0, 0) r a) (polar (0, 0, 0) r' a) = polar (0, 0, 0) (between t r r') a.
Proof. unfold polar, lerp, lerp1, between. f_equal; [f_equal|]; ring. Qed.

Lemma polar_add r a c : add3 (polar (0, 0, 0) r a) c = polar c r a.
Proof. destruct c as ((x, y), z). unfold polar, add3. f_equal; [f_equal|]; ring. Qed.

Section Obj.
Variable areas : shape3 -> list pt -> list R.
Variable volumes : shape3 -> list pt -> list R.

Lemma annular_ok inner outer tmin tmax rs ts pr pt_ center c :
  0 <= inner < outer -> subdivides rs pr -> subdivides ts pt_ -> (2 <= length pt_)%nat -> offset center c ->
  exists g, AnnularSector areas inner outer tmin tmax rs ts center = Ok g /\
    sg_dims g = (length pt_, length pr, 1%nat) /\ length (sg_pts g) = (length pt_ * length pr)%nat /\
    sg_pd g = [] /\ sg_cd g = [] /\ length (sg_ghost g) = n_cells (sg_dims g) /\
    forall i j t s, nth_error pt_ i = Some t -> nth_error pr j = Some s ->
      node g i j = Some (polar c (between s inner outer) (between t tmin tmax)).
Proof.
  intros Hr Sr St L O. unfold AnnularSector.
  destruct (Rleb_spec 0 inner); [|lra]. destruct (Rltb_spec inner outer); [|lra]. cbn [andb negb].
  destruct (polar_arc inner tmin tmax ts pt_ St L) as (a & -> & La & Na).
  destruct (polar_arc outer tmin tmax ts pt_ St L) as (b & -> & Lb & Nb). cbn [bind].
  destruct (surface_ok areas a b rs pr ltac:(congruence) Sr) as (g & -> & Dg & Lg & E1 & E2 & E3 & Ng). cbn [bind].
  destruct (sg_translate_ok g center c O) as (g' & -> & D' & L' & N' & G' & P' & C').
  exists g'. split; [reflexivity|]. split; [congruence|]. split; [congruence|]. split; [congruence|]. split; [congruence|]. split; [congruence|].
  intros i j t s Ht Hs. rewrite (node_translate _ _ _ D' N'), (Ng i j _ _ s (Na i t Ht) (Nb i t Ht) Hs).
  cbn [option_map]. rewrite polar_lerp, polar_add. do 2 f_equal. unfold between. ring.
Qed.

Lemma annular_bad inner outer tmin tmax rs ts center :
  ~ 0 <= inner < outer -> AnnularSector areas inner outer tmin tmax rs ts center = Err ValueError.
Proof.
  intros H. unfold AnnularSector. destruct (Rleb_spec 0 inner), (Rltb_spec inner outer); cbn; try reflexivity. lra.
Qed.

Lemma between_0 a b : between 0 a b = a. Proof. unfold between. ring. Qed.
Lemma between_1 a b : between 1 a b = b. Proof. unfold between. ring. Qed.

Lemma polar_full c r : polar c r 360 = polar c r 0.
Proof.
  destruct c as ((x, y), z). unfold polar, degrees. replace (360 * PI / 180) with (2 * PI) by field.
  replace (0 * PI / 180) with 0 by field. now rewrite cos_2PI, sin_2PI, cos_0, sin_0.
Qed.

Lemma annulus_closed inner outer rs ts pr center c z m gr : sb_res ts = ResInt z -> sb_method ts = m ->
  names_method m gr -> 0 <= inner < outer -> subdivides rs pr -> offset center c ->
  exists g, Annulus areas inner outer rs ts center = Ok g /\
    sg_dims g = (S (Z.to_nat (Z.max 1 z)), length pr, 1%nat) /\
    forall j s, nth_error pr j = Some s ->
      node g 0 j = Some (polar c (between s inner outer) 0) /\ node g (Z.to_nat (Z.max 1 z)) j = node g 0 j.
Proof.
  intros E1 E2 M Hr Sr O. destruct (perc_proper z m gr M) as (p & Hp & Lp & H0 & H1 & _).
  assert (St : subdivides ts p) by (unfold subdivides; congruence).
  destruct (annular_ok inner outer 0 360 rs ts pr p center c Hr Sr St ltac:(lia) O) as (g & Hg & D & _ & _ & _ & _ & N).
  exists g. split; [exact Hg|]. rewrite Lp in D. split; [exact D|]. intros j s Hs.
  rewrite (N _ _ _ _ H0 Hs), (N _ _ _ _ H1 Hs), between_0, between_1. split; [reflexivity|].
  now rewrite polar_full.
Qed.

(* ---------- sectors ---------- *)

Lemma sector_ok radius tmin tmax s p center c :
  0 < radius -> subdivides s p -> (2 <= length p)%nat -> offset center c ->
  exists m, Sector radius tmin tmax s center = Ok m /\
    length (t_pts m) = S (length p) /\ nth_error (t_pts m) 0 = Some c /\
    (forall k t, nth_error p k = Some t -> nth_error (t_pts m) (S k) = Some (polar c radius (between t tmin tmax))) /\
    length (t_cells m) = (length p - 1)%nat /\
    (forall k, (k < length p - 1)%nat -> nth_error (t_cells m) k = Some [0; S k; S (S k)]%nat).
Proof.
  intros Hr Hp L O. unfold Sector. destruct (Rleb_spec radius 0); [lra|].
  destruct (polar_arc radius tmin tmax s p Hp L) as (a & -> & La & Na). cbn [bind].
  rewrite (translate_ok _ _ _ O). cbn [bind]. eexists. split; [reflexivity|]. cbn [t_pts t_cells].
  split; [rewrite map_length; cbn; congruence|]. split.
  { cbn. f_equal. destruct c as ((x, y), z). cbn. f_equal; [f_equal|]; ring. }
  split.
  { intros k t Ht. cbn [map nth_error]. rewrite nth_error_map, (Na k t Ht). cbn [option_map].
    rewrite polar_add. do 2 f_equal. unfold between. ring. }
  rewrite map_length, seq_length. split; [congruence|]. intros k Hk. rewrite nth_error_map, nth_error_seq. destruct (Nat.ltb_spec k (length a - 1)); [|lia].
  cbn [option_map Nat.add]. now rewrite Nat.add_1_r, (Nat.add_comm k 2).
Qed.

Lemma sector_bad radius tmin tmax s center : radius <= 0 -> Sector radius tmin tmax s center = Err ValueError.
Proof. intros H. unfold Sector. destruct (Rleb_spec radius 0); [reflexivity|lra]. Qed.

Lemma polar_area c r a b : twice_area3 c (polar c r a) (polar c r b) = r * r * sin (degrees (b - a)).
Proof.
  destruct c as ((x, y), z). unfold twice_area3, polar. replace (degrees (b - a)) with (degrees b - degrees a) by (unfold degrees; field).
  rewrite sin_minus. ring.
Qed.
End Obj.
