From Verif Require Import RealAux Perc_model Perc_spec Perc_proof Surface_model Surface_spec Surface_proof
  Volume_model Volume_spec Volume_proof SMerge_model SMerge_spec SMerge_proof
  Groups_model Groups_spec Groups_proof Groups2_proof
  Stack_model Stack_spec Vec_spec Gen_proof Stack_proof Stack2_proof Stack3_proof Stack4_proof Stack5_proof Stack6_proof Stack7_proof Plane_proof
  Final_model Final_spec Final4_proof Nodes_spec Nodes_proof Sweep_model Sweep_spec Spin_spec.
From Coq Require Import Lra.
Open Scope R_scope.

Lemma norm_square v : Stack_model.norm v * Stack_model.norm v = dot v v.
Proof.
  unfold Stack_model.norm. apply sqrt_sqrt. destruct v as [[x y] z]. cbn. pose proof (Rle_0_sqr x). pose proof (Rle_0_sqr y). pose proof (Rle_0_sqr z).
  unfold Rsqr in *. lra.
Qed.
Lemma norm_pos v : v <> (0, 0, 0) -> Stack_model.norm v <> 0.
Proof.
  intros Hv E. pose proof (norm_square v) as H. rewrite E in H. destruct v as [[x y] z]. cbn in H.
  pose proof (Rle_0_sqr x). pose proof (Rle_0_sqr y). pose proof (Rle_0_sqr z). unfold Rsqr in *.
  assert (x * x = 0) by lra. assert (y * y = 0) by lra. assert (z * z = 0) by lra.
  apply Hv. f_equal; [f_equal|]; apply Rsqr_0_uniq; assumption.
Qed.

Lemma rotation_turned v a f q : v <> (0, 0, 0) ->
  exists r, turned v a q r /\ rodrigues (unit_of v) (deg2rad a) (scale3 f q) = vtimes f r.
Proof.
  intros Hv. pose proof (norm_pos v Hv) as Hn. pose proof (norm_square v) as HS.
  set (N := Stack_model.norm v) in *.
  set (s := dot v q / (N * N)). set (w := vminus q (vtimes s v)).
  eexists. split.
  - exists s, w. split; [|split; [|reflexivity]].
    + unfold w. destruct v as [[? ?] ?], q as [[? ?] ?]. cbn. f_equal; [f_equal|]; ring.
    + unfold w, s. rewrite HS. assert (dot v v <> 0) by (rewrite <- HS; apply Rmult_integral_contrapositive_currified; assumption).
      destruct v as [[x y] z], q as [[x' y'] z']. cbn in *. field. assumption.
  - unfold rodrigues, unit_of. fold N. change (sqrt (vinner v v)) with N.
    replace (a * PI / 180) with (deg2rad a) by (unfold deg2rad; field). set (th := deg2rad a).
    unfold w, s. clearbody th. generalize (cos th) (sin th). intros co si. clear HS. clearbody N.
    destruct v as [[x y] z], q as [[x' y'] z']. unfold scale3, add3, cross, dot, vtimes, vplus, vminus, vouter.
    apply injective_projections; [apply injective_projections|]; cbn [fst snd]; field; exact Hn.
Qed.

Lemma extrude_add_spun ds da last vx vy vz s a : last <> [] -> (in_force a da <> None -> (vx, vy, vz) <> (0, 0, 0)) ->
  exists q c, extrude_add ds da last [vx; vy; vz] s a = Ok q /\ box_middle last c /\ length q = length last /\
    forall k p, nth_error last k = Some p -> exists r, nth_error q k = Some r /\ spun (vx, vy, vz) (in_force s ds) (in_force a da) c p r.
Proof.
  intros Hne Hv. unfold extrude_add. set (v := (vx, vy, vz)) in *.
  change (match s with Some s0 => Some s0 | None => ds end) with (in_force s ds).
  change (match a with Some s0 => Some s0 | None => da end) with (in_force a da).
  set (q1 := map (fun p => add3 p v) last).
  set (q2 := match in_force s ds with Some s0 => let c := center q1 in map (fun p => add3 (scale3 s0 (sub3 p c)) c) q1 | None => q1 end).
  set (f := match in_force s ds with Some s0 => s0 | None => 1 end).
  assert (Hc1 : center q1 = add3 (center last) v) by (apply center_translate; exact Hne).
  assert (Hq1 : q1 <> []) by (unfold q1; destruct last; [congruence|discriminate]).
  assert (Hc2 : center q2 = add3 (center last) v).
  { unfold q2. destruct (in_force s ds); [cbn zeta; rewrite center_scale by exact Hq1; exact Hc1|exact Hc1]. }
  assert (L2 : length q2 = length last) by (unfold q2, q1; destruct (in_force s ds); cbn zeta; rewrite ?map_length; reflexivity).
  assert (H2 : forall k p, nth_error last k = Some p -> nth_error q2 k = Some (vplus (vplus (center last) v) (vtimes f (vminus p (center last))))).
  { intros k p Hk. unfold q2, f. destruct (in_force s ds) as [s0|]; cbn zeta.
    - assert (E1 : nth_error q1 k = Some (add3 p v)) by (unfold q1; rewrite nth_error_map, Hk; reflexivity). rewrite nth_error_map, E1. cbn [option_map]. rewrite Hc1. f_equal.
      destruct (center last) as [[? ?] ?], p as [[? ?] ?], v as [[? ?] ?]. cbn. f_equal; [f_equal|]; ring.
    - unfold q1. rewrite nth_error_map, Hk. cbn [option_map]. f_equal.
      destruct (center last) as [[? ?] ?], p as [[? ?] ?], v as [[? ?] ?]. cbn. f_equal; [f_equal|]; ring. }
  assert (HM : box_middle last (center last)) by (destruct last; [congruence|apply center_middle]).
  destruct (in_force a da) as [a0|] eqn:Ea.
  - exists (map (rotate_vector v a0 (center q2)) q2), (center last). split; [reflexivity|]. split; [exact HM|]. split; [now rewrite map_length|].
    intros k p Hk. rewrite nth_error_map, (H2 k p Hk). cbn [option_map]. eexists. split; [reflexivity|]. unfold rotate_vector. rewrite Hc2.
    assert (Hv' : v <> (0, 0, 0)) by (apply Hv; discriminate).
    destruct (rotation_turned v a0 f (vminus p (center last)) Hv') as (r & Hr & E). exists r. split; [exact Hr|].
    replace (sub3 (vplus (vplus (center last) v) (vtimes f (vminus p (center last)))) (add3 (center last) v)) with (scale3 f (vminus p (center last))).
    2:{ destruct (center last) as [[? ?] ?], p as [[? ?] ?], v as [[? ?] ?]. cbn. f_equal; [f_equal|]; ring. }
    rewrite E. fold f. destruct (center last) as [[? ?] ?], r as [[? ?] ?], v as [[? ?] ?]. cbn. f_equal; [f_equal|]; ring.
  - exists q2, (center last). split; [reflexivity|]. split; [exact HM|]. split; [exact L2|].
    intros k p Hk. rewrite (H2 k p Hk). eexists. split; [reflexivity|]. eexists. split; [reflexivity|]. reflexivity.
Qed.

Open Scope nat_scope.
(* the surfaces made by the calls *)
Fixpoint surfaces (ds da : option R) (S : list pt) (calls : list ex_call) : list (list pt) :=
  match calls with
  | [] => []
  | c :: l => match extrude_add ds da S (ec_vector c) (ec_scale c) (ec_angle c) with Ok q => q :: surfaces ds da q l | Err _ => [] end
  end.
Lemma surfaces_swept ds da : forall calls S, S <> [] -> Forall (spins da) calls -> swept ds da S calls (surfaces ds da S calls).
Proof.
  induction calls as [|c calls IH]; intros S HS HF; cbn [surfaces]; [constructor|].
  inversion HF as [|? ? (x & y & z & Ev & Hv) HF']; subst.
  destruct (extrude_add_spun ds da S x y z (ec_scale c) (ec_angle c) HS Hv) as (q & m & E & HM & L & HP).
  rewrite Ev, E. econstructor; eauto. apply IH; [|exact HF']. destruct q; [destruct S; [congruence|discriminate]|discriminate].
Qed.
Lemma swept_length ds da S calls surfs : swept ds da S calls surfs -> length surfs = length calls /\ Forall (fun S' => length S' = length S) surfs.
Proof.
  induction 1 as [|S call calls x y z c S' rest Ev HM L HP HS [IH1 IH2]]; [split; constructor|]. split; [cbn; congruence|].
  constructor; [exact L|]. eapply Forall_impl; [|exact IH2]. cbn. intros ? ->. exact L.
Qed.

Section Structured.
Context {D : Type} (num : Z -> D) (int : D -> Z) (Hint : forall z, int (num z) = z).
Context (volumes : shape3 -> list pt -> list R) (o : options) (ax : nat) (d : shape3) (Hax : ax <= 2) (Hu : unit_along ax d)
  (m : sbase D) (Hw : wf_base d m) (ds da : option R).

Definition spin_item (cs : ex_call * list pt) : item (sbase D) :=
  mkItem (setp (sops num) (snd cs) m) (ec_res (fst cs)) (ec_method (fst cs)) 0%Z 0 (ec_group (fst cs)) false.

Lemma spin_calls : forall calls S pre last, S <> [] -> Forall (spins da) calls -> it_mesh last = setp (sops num) S m ->
  extrude_calls num ds da (pre ++ [last]) calls = Ok (pre ++ last :: map spin_item (combine calls (surfaces ds da S calls))).
Proof.
  induction calls as [|c calls IH]; intros S pre last HS HF El; [reflexivity|].
  inversion HF as [|? ? (x & y & z & Ev & Hv) HF']; subst.
  destruct (extrude_add_spun ds da S x y z (ec_scale c) (ec_angle c) HS Hv) as (q & mm & E & _ & L & _).
  cbn [extrude_calls surfaces]. unfold extrude_call. rewrite rev_app_distr. cbn [rev app]. rewrite El.
  change (getp (sops num) (setp (sops num) S m)) with S. rewrite Ev, E. cbn [bind].
  change (setp (sops num) q (setp (sops num) S m)) with (setp (sops num) q m).
  rewrite (IH q (pre ++ [last])); [|destruct q; [destruct S; [congruence|discriminate]|discriminate]|exact HF'|reflexivity].
  cbn [combine map]. rewrite <- app_assoc. reflexivity.
Qed.

Definition spin_items (calls : list ex_call) : list (item (sbase D)) :=
  mkItem m ResNone None 0%Z 0 GNone false :: map spin_item (combine calls (surfaces ds da (ss_pts (sb_surf m)) calls)).
Lemma base_points_some : ss_pts (sb_surf m) <> [].
Proof.
  destruct Hw as (_ & L & _). destruct (unit_along_dim ax d Hax Hu) as (_ & _ & H0 & H1 & H2). destruct d as [[x y] z]. cbn in *.
  intros E. rewrite E in L. cbn in L. destruct x, y, z; cbn in *; try lia.
Qed.
Lemma spin_program calls : Forall (spins da) calls ->
  extrude_program num int volumes o ds da m calls = extrude_mesh num int volumes o (spin_items calls).
Proof.
  intros HF. unfold extrude_program, extrude_init. destruct Hw as (Ed & _). rewrite Ed. destruct (unit_along_dim ax d Hax Hu) as (-> & _).
  cbn [negb Nat.eqb bind].
  pose proof (spin_calls calls (ss_pts (sb_surf m)) [] (mkItem m ResNone None 0%Z 0 GNone false) base_points_some HF) as H.
  cbn [app] in H. rewrite H; [reflexivity|]. cbn. destruct m as [[dd pp pd cd gh] cg lb]. reflexivity.
Qed.

Context (calls : list ex_call) (HF : Forall (spins da) calls).
Let surfs := surfaces ds da (ss_pts (sb_surf m)) calls.
Lemma spin_swept : swept ds da (ss_pts (sb_surf m)) calls surfs.
Proof. apply surfaces_swept; [apply base_points_some|exact HF]. Qed.
Lemma spin_nth j b : nth_error (spin_items calls) (S j) = Some b ->
  exists c S, nth_error calls j = Some c /\ nth_error surfs j = Some S /\ b = spin_item (c, S).
Proof.
  cbn [spin_items nth_error]. rewrite nth_error_map. destruct (nth_error (combine _ _) j) as [[c S]|] eqn:E; [|discriminate]. intros [= <-].
  exists c, S. fold surfs in E. revert E. generalize surfs. clear. revert j. induction calls as [|x l IH]; intros [|j] [|y s] E; try discriminate.
  - injection E as <- <-. auto.
  - exact (IH j s E).
Qed.
Lemma spin_mesh j a : nth_error (spin_items calls) j = Some a ->
  exists S, nth_error (ss_pts (sb_surf m) :: surfs) j = Some S /\ it_mesh a = setp (sops num) S m.
Proof.
  destruct j as [|j]; intros E.
  - injection E as <-. eexists. split; [reflexivity|]. cbn. destruct m as [[dd pp pd cd gh] cg lb]. reflexivity.
  - destruct (spin_nth j a E) as (c & S & _ & HS & ->). exists S. split; [exact HS|reflexivity].
Qed.
Lemma spin_len : length (spin_items calls) = S (length calls).
Proof. cbn [spin_items length]. rewrite map_length, combine_length. fold surfs. rewrite (proj1 (swept_length _ _ _ _ _ spin_swept)). lia. Qed.
Lemma spin_wf : Forall (fun i => wf_base d (it_mesh i)) (spin_items calls).
Proof.
  assert (HS : forall S, length S = length (ss_pts (sb_surf m)) -> wf_base d (setp (sops num) S m)).
  { intros S L. destruct Hw as (H1 & H2 & H3 & H4 & H5 & H6 & H7). split; [exact H1|]. split; [cbn; congruence|].
    repeat (split; [assumption|]). exact H7. }
  constructor; [exact Hw|]. rewrite Forall_forall. intros i Hi. apply in_map_iff in Hi as ([c S] & <- & Hin). apply in_combine_r in Hin.
  apply HS. destruct (swept_length _ _ _ _ _ spin_swept) as [_ HL]. rewrite Forall_forall in HL. apply HL, Hin.
Qed.
Lemma spin_trans : Forall (fun it => it_trans it = false) (tl (spin_items calls)).
Proof. cbn [tl spin_items]. rewrite Forall_forall. intros i Hi. apply in_map_iff in Hi as (cs & <- & _). reflexivity. Qed.
Lemma spin_span percs : Forall2 subdivided calls percs -> Forall named_call calls ->
  Forall (fun it => it_trans it = false /\ positions_span it /\ group_by_name it) (tl (spin_items calls)).
Proof.
  intros HS HG. cbn [tl spin_items]. rewrite Forall_forall. intros i Hi. apply in_map_iff in Hi as ([c S] & <- & Hin). apply in_combine_l in Hin.
  split; [reflexivity|]. apply In_nth_error in Hin as [j Hj]. split.
  - destruct (Forall2_nth_error _ _ _ _ _ HS Hj) as (perc & Hp & H1 & H2 & H3 & H4). exists perc. auto.
  - rewrite Forall_forall in HG. apply HG. eapply nth_error_In. exact Hj.
Qed.
Lemma spin_counts percs nsubs : Forall2 subdivided calls percs -> layer_counts (tl (spin_items calls)) nsubs -> nsubs = map (fun p => length p - 1) percs.
Proof.
  intros HS [L HC]. assert (Lt : length (tl (spin_items calls)) = length calls) by (pose proof spin_len as E; cbn in E |- *; lia).
  pose proof (Forall2_len _ _ _ HS) as Lp.
  apply nth_error_ext. intros j. rewrite nth_error_map. destruct (nth_error (tl (spin_items calls)) j) as [b|] eqn:Eb.
  - destruct (HC j b Eb) as (n & En & perc & Hp & ->). destruct (spin_nth j b Eb) as (c & S & Hc & _ & ->).
    destruct (Forall2_nth_error _ _ _ _ _ HS Hc) as (perc' & Hp' & (E & _)). cbn in Hp. rewrite E in Hp. injection Hp as <-. rewrite En, Hp'. reflexivity.
  - apply nth_error_None in Eb. rewrite (proj2 (nth_error_None nsubs j)), (proj2 (nth_error_None percs j)); auto; lia.
Qed.
End Structured.
