From Verif Require Import RealAux Perc_model Perc_spec Perc_proof Surface_model Surface_spec Volume_model Volume_spec
  SMerge_model Groups_model Groups_spec Groups_proof Groups2_proof Gen_proof Stack_model Stack_spec Vec_spec Stack3_proof Final_model Final_spec
  Unstr_model Unstr_spec Unstr3_proof Topo_model Paint_proof Sweep_spec Sweep_proof Sweep2_model Sweep2_spec Sweep2_proof Spin_spec Spin_proof Spin2_spec.
From Coq Require Import Lra.
Open Scope nat_scope.

Section Spin.
Context {D : Type} (num : Z -> D) (int : D -> Z) (Hint : forall z, int (num z) = z).
Context (o : options) (tol : R) (clean : uvol D -> uvol D) (Hclean : cleans tol clean).
Context (pvmerge : list (uvol D) -> res (uvol D)) (Hmerge : appends pvmerge).
Context (m : ubase D) (Hp0 : us_pts (ub_surf m) <> []) (ds da : option R).

Definition uspin_item (cs : ex_call * list pt) : item (ubase D) :=
  mkItem (setp (uops num) (snd cs) m) (ec_res (fst cs)) (ec_method (fst cs)) 0%Z 0 (ec_group (fst cs)) false.
Lemma uspin_calls : forall calls S pre last, S <> [] -> Forall (spins da) calls -> it_mesh last = setp (uops num) S m ->
  extrude_ucalls num ds da (pre ++ [last]) calls = Ok (pre ++ last :: map uspin_item (combine calls (surfaces ds da S calls))).
Proof.
  induction calls as [|c calls IH]; intros S pre last HS HF El; [reflexivity|].
  inversion HF as [|? ? (x & y & z & Ev & Hv) HF']; subst.
  destruct (extrude_add_spun ds da S x y z (ec_scale c) (ec_angle c) HS Hv) as (q & mm & E & _ & L & _).
  cbn [extrude_ucalls surfaces]. unfold extrude_ucall. rewrite rev_app_distr. cbn [rev app]. rewrite El.
  change (getp (uops num) (setp (uops num) S m)) with S. rewrite Ev, E. cbn [bind].
  change (setp (uops num) q (setp (uops num) S m)) with (setp (uops num) q m).
  rewrite (IH q (pre ++ [last])); [|destruct q; [destruct S; [congruence|discriminate]|discriminate]|exact HF'|reflexivity].
  cbn [combine map]. rewrite <- app_assoc. reflexivity.
Qed.
Definition uspin_items (calls : list ex_call) : list (item (ubase D)) :=
  mkItem m ResNone None 0%Z 0 GNone false :: map uspin_item (combine calls (surfaces ds da (us_pts (ub_surf m)) calls)).

Context (calls : list ex_call) (HF : Forall (spins da) calls).
Lemma uspin_run : extrude_ucalls num ds da [mkItem m ResNone None 0%Z 0 GNone false] calls = Ok (uspin_items calls).
Proof.
  pose proof (uspin_calls calls (us_pts (ub_surf m)) [] (mkItem m ResNone None 0%Z 0 GNone false) Hp0 HF) as H.
  cbn [app] in H. rewrite H; [reflexivity|]. cbn. destruct m as [[pp cc pd cd gh] cg lb]. reflexivity.
Qed.
Lemma uspin_inv g labels : extrude_uprogram num int o pvmerge clean ds da m calls = Ok (g, labels) ->
  extrude_umesh num int o pvmerge clean (uspin_items calls) = Ok (g, labels).
Proof.
  unfold extrude_uprogram, extrude_uinit. destruct (get_dimension _) as [dim|]; [|discriminate]. cbn [bind].
  destruct (negb _); [discriminate|]. cbn [bind]. rewrite uspin_run. auto.
Qed.
Lemma uspin_program : us_cells (ub_surf m) <> [] -> flat m ->
  extrude_uprogram num int o pvmerge clean ds da m calls = extrude_umesh num int o pvmerge clean (uspin_items calls).
Proof.
  intros Hne Hf. unfold extrude_uprogram, extrude_uinit. rewrite (flat_dim m Hne Hf). cbn [bind Z.eqb Pos.eqb negb].
  rewrite uspin_run. reflexivity.
Qed.

Let surfs := surfaces ds da (us_pts (ub_surf m)) calls.
Lemma uspin_swept : swept ds da (us_pts (ub_surf m)) calls surfs.
Proof. apply surfaces_swept; [exact Hp0|exact HF]. Qed.
Lemma uspin_nth j b : nth_error (uspin_items calls) (S j) = Some b ->
  exists c S, nth_error calls j = Some c /\ nth_error surfs j = Some S /\ b = uspin_item (c, S).
Proof.
  cbn [uspin_items nth_error]. rewrite nth_error_map. destruct (nth_error (combine _ _) j) as [[c S]|] eqn:E; [|discriminate]. intros [= <-].
  exists c, S. fold surfs in E. revert E. generalize surfs. clear. revert j. induction calls as [|x l IH]; intros [|j] [|y s] E; try discriminate.
  - injection E as <- <-. auto.
  - exact (IH j s E).
Qed.
Lemma uspin_mesh j a : nth_error (uspin_items calls) j = Some a ->
  exists S, nth_error (us_pts (ub_surf m) :: surfs) j = Some S /\ it_mesh a = setp (uops num) S m.
Proof.
  destruct j as [|j]; intros E.
  - injection E as <-. eexists. split; [reflexivity|]. cbn. destruct m as [[pp cc pd cd gh] cg lb]. reflexivity.
  - destruct (uspin_nth j a E) as (c & S & _ & HS & ->). exists S. split; [exact HS|reflexivity].
Qed.
Lemma uspin_len : length (uspin_items calls) = S (length calls).
Proof. cbn [uspin_items length]. rewrite map_length, combine_length. fold surfs. rewrite (proj1 (swept_length _ _ _ _ _ uspin_swept)). lia. Qed.
Lemma uspin_all (P : item (ubase D) -> Prop) :
  (forall c S, In c calls -> length S = length (us_pts (ub_surf m)) -> P (uspin_item (c, S))) -> Forall P (tl (uspin_items calls)).
Proof.
  intros H. cbn [tl uspin_items]. rewrite Forall_forall. intros i Hi. apply in_map_iff in Hi as ([c S] & <- & Hin).
  apply H; [eapply in_combine_l; exact Hin|]. apply in_combine_r in Hin.
  destruct (swept_length _ _ _ _ _ uspin_swept) as [_ HL]. rewrite Forall_forall in HL. apply HL, Hin.
Qed.
Lemma uspin_wf : wf_ubase m -> Forall (fun i => wf_ubase (it_mesh i)) (uspin_items calls).
Proof.
  intros Hw. constructor; [exact Hw|]. apply uspin_all. intros c S _ L. destruct Hw as (H1 & H2 & H3). split; [exact H1|]. split; [exact H2|].
  cbn. rewrite L. exact H3.
Qed.
Lemma uspin_regular np types : regular_ubase np types m -> Forall (fun i => regular_ubase np types (it_mesh i)) (uspin_items calls).
Proof.
  intros HR. constructor; [exact HR|]. pose proof (uspin_wf (proj1 HR)) as HW. inversion HW as [|? ? _ HW']; subst.
  apply uspin_all. intros c S _ L. destruct HR as (H1 & H2 & H3 & H4 & H5 & H6 & H7 & H8).
  split; [destruct H1 as (I1 & I2 & I3); split; [exact I1|]; split; [exact I2|]; cbn; rewrite L; exact I3|].
  split; [exact H2|]. split; [cbn; congruence|]. split; [exact H4|]. split; [exact H5|]. split; [exact H6|]. split; [exact H7|exact H8].
Qed.
Lemma uspin_trans : Forall (fun it => it_trans it = false) (tl (uspin_items calls)).
Proof. apply uspin_all. reflexivity. Qed.
Context (percs : list (list R)) (HS : Forall2 cut_at calls percs).
Lemma uspin_counts nsubs : layer_counts (tl (uspin_items calls)) nsubs -> nsubs = map (fun p => length p - 1) percs.
Proof.
  intros [L HC]. assert (Lt : length (tl (uspin_items calls)) = length calls) by (pose proof uspin_len as E; cbn in E |- *; lia).
  pose proof (Forall2_len _ _ _ HS) as Lp.
  apply nth_error_ext. intros j. rewrite nth_error_map. destruct (nth_error (tl (uspin_items calls)) j) as [b|] eqn:Eb.
  - destruct (HC j b Eb) as (n & En & perc & Hp & ->). destruct (uspin_nth j b Eb) as (c & S & Hc & _ & ->).
    destruct (Forall2_nth_error _ _ _ _ _ HS Hc) as (perc' & Hp' & (E & _)). cbn in Hp. rewrite E in Hp. injection Hp as <-. rewrite En, Hp'. reflexivity.
  - apply nth_error_None in Eb. rewrite (proj2 (nth_error_None nsubs j)), (proj2 (nth_error_None percs j)); auto; lia.
Qed.
Lemma uspin_columns place : placed (uspin_items calls) (map (fun p => length p - 1) percs) place -> columns (length (us_cells (ub_surf m))) percs place.
Proof.
  assert (HB : forall j a, nth_error (uspin_items calls) j = Some a -> us_cells (ub_surf (it_mesh a)) = us_cells (ub_surf m)).
  { intros j a Ha. destruct (uspin_mesh j a Ha) as (S & _ & ->). reflexivity. }
  intros [HN HP]. split; [exact HN|]. intros j l c. rewrite HP. split.
  - intros (n & a & Hn & Ha & Hl & Hc). rewrite nth_error_map in Hn. destruct (nth_error percs j) as [perc|]; [|discriminate]. injection Hn as <-.
    exists perc. split; [reflexivity|]. split; [lia|]. unfold n_base in Hc. rewrite (HB j a Ha) in Hc. exact Hc.
  - intros (perc & Hp & Hl & Hc). pose proof (Forall2_len _ _ _ HS) as Lp.
    assert (Hj : j < length calls) by (rewrite Lp; apply nth_error_Some; congruence).
    destruct (nth_error (uspin_items calls) j) as [a|] eqn:Ha; [|apply nth_error_None in Ha; rewrite uspin_len in Ha; lia].
    exists (length perc - 1), a. rewrite nth_error_map, Hp. split; [reflexivity|]. split; [reflexivity|].
    split; [lia|]. unfold n_base. rewrite (HB j a Ha). exact Hc.
Qed.
(* item j + 1 was made by call j, between the surfaces j and j + 1 *)
Lemma uspin_at j a b : nth_error (uspin_items calls) j = Some a -> nth_error (uspin_items calls) (S j) = Some b ->
  exists call below above perc, nth_error calls j = Some call /\ nth_error (us_pts (ub_surf m) :: surfs) j = Some below /\
    nth_error surfs j = Some above /\ nth_error percs j = Some perc /\ resolution_to_perc (it_res b) (it_method b) = Ok perc /\
    it_mesh a = setp (uops num) below m /\ it_mesh b = setp (uops num) above m /\ it_group b = ec_group call.
Proof.
  intros Ha Hb. destruct (uspin_mesh j a Ha) as (below & HB & Ea). destruct (uspin_nth j b Hb) as (call & above & Hc & HA & ->).
  destruct (Forall2_nth_error _ _ _ _ _ HS Hc) as (perc & Hp & (E & _)).
  exists call, below, above, perc. repeat (split; [assumption|]). split; reflexivity.
Qed.
End Spin.

Lemma uspin_defined {D} (num : Z -> D) (int : D -> Z) (Hint : forall z, int (num z) = z) o tol clean (Hclean : cleans tol clean)
  pvmerge (Hmerge : appends pvmerge) np types (m : ubase D) ds da calls percs :
  regular_ubase np types m -> us_pts (ub_surf m) <> [] -> calls <> [] -> Forall (spins da) calls -> Forall2 cut_at calls percs ->
  (forall c, In c calls -> usable_group (ubase_view m) (ec_group c)) ->
  (forall bs, 2 <= length bs -> exists g, pvmerge bs = Ok g) ->
  exists g labels, extrude_uprogram num int o pvmerge clean ds da m calls = Ok (g, labels).
Proof.
  intros HR Hp0 Hne HF HS HG HT.
  assert (Hf : flat m). { destruct HR as (_ & _ & _ & _ & H & _). intros ty ids Hin. destruct (H ty ids Hin) as [->|[->|[[-> _]|[-> _]]]]; cbn; auto. }
  assert (Hc : us_cells (ub_surf m) <> []). { destruct HR as (_ & Hty & _ & <- & _). intros E. rewrite E in Hty. now apply Hty. }
  rewrite (uspin_program num int o clean pvmerge m Hp0 ds da calls HF Hc Hf).
  apply (extrude_umesh_defined_gen num int Hint o tol clean Hclean pvmerge Hmerge np types); auto.
  - rewrite (uspin_len num m Hp0 ds da calls HF). destruct calls; [congruence|cbn; lia].
  - apply (uspin_regular num m Hp0 ds da calls HF np types HR).
  - apply (uspin_all num m Hp0 ds da calls HF). intros c S Hin _. split; [reflexivity|]. apply In_nth_error in Hin as [j Hj].
    destruct (Forall2_nth_error _ _ _ _ _ HS Hj) as (perc & _ & E). exists perc. exact E.
  - intros j a b g Ha Hb. destruct (uspin_at num m Hp0 ds da calls percs HS j a b Ha Hb) as (call & below & above & perc & Hcall & _ & _ & _ & _ & Ea & _ & Eg).
    rewrite Ea, Eg. apply initialize_usable. apply HG. eapply nth_error_In; eauto.
Qed.
