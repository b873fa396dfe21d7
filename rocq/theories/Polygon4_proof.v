(* Polygon. *)
From Coq Require Import Reals Lra Lia.
From Verif Require Import Prelude Surface_model Volume_spec Lines_model Lines_spec Lines1_proof Lines5_proof
  Polygon_model Polygon_spec Polygon1_proof.

Lemma row_eqb_spec a b : row_eqb a b = true <-> a = b.
Proof. unfold row_eqb. destruct (list_eq_dec Req_EM_T a b); split; congruence. Qed.

Definition widen (r : list R) : list R := if length r =? 2 then r ++ [0%R] else r.

Lemma to_points_open n l : open_ring l -> rows_of n l ->
  to_points l = Ok (map widen (l ++ firstn 1 l)) /\
  to_points (l ++ firstn 1 l) = Ok (map widen (l ++ firstn 1 l)).
Proof.
  destruct l as [|p l]; [intros []|]. intros Ho Hn. cbn [open_ring] in Ho.
  change (firstn 1 (p :: l)) with [p].
  assert (Hw : forall m, m = (p :: l) ++ [p] ->
    (if length p =? 2 then map (fun r => r ++ [0%R]) m else m) = map widen m).
  { intros m ->.
    assert (Hall : Forall (fun r => length r = length p) ((p :: l) ++ [p])).
    { inversion Hn as [|? ? H1 H2]. rewrite <- H1 in H2.
      apply Forall_app. split; [constructor; [reflexivity | ] | repeat constructor].
      exact H2. }
    revert Hall. generalize ((p :: l) ++ [p]). intros m Hall. unfold widen.
    destruct (length p =? 2) eqn:E.
    - apply map_ext_in. intros r Hr. rewrite Forall_forall in Hall. rewrite (Hall r Hr), E. reflexivity.
    - rewrite <- (map_id m) at 1. apply map_ext_in. intros r Hr.
      rewrite Forall_forall in Hall. rewrite (Hall r Hr), E. reflexivity. }
  split.
  - unfold to_points. destruct (row_eqb p (last (p :: l) p)) eqn:E.
    + exfalso. apply row_eqb_spec in E. congruence.
    + f_equal. apply Hw. reflexivity.
  - cbn [app to_points]. 
    replace (row_eqb p (last (p :: l ++ [p]) p)) with true.
    + f_equal. apply (Hw ((p :: l) ++ [p])). reflexivity.
    + symmetry. apply row_eqb_spec. change (p :: l ++ [p]) with ((p :: l) ++ [p]). rewrite last_last. reflexivity.
Qed.

Lemma to_points_closing l : open_ring l -> to_points (l ++ firstn 1 l) = to_points l.
Proof.
  destruct l as [|p l]; [intros []|]. intros Ho. cbn [open_ring] in Ho.
  change (firstn 1 (p :: l)) with [p]. cbn [app to_points].
  replace (row_eqb p (last (p :: l ++ [p]) p)) with true.
  - unfold to_points. destruct (row_eqb p (last (p :: l) p)) eqn:E; [|reflexivity].
    exfalso. apply row_eqb_spec in E. congruence.
  - symmetry. apply row_eqb_spec. change (p :: l ++ [p]) with ((p :: l) ++ [p]). rewrite last_last. reflexivity.
Qed.

Lemma polygon_closing g result opt cs engine ct shell holes shell' holes' :
  (shell' = shell \/ (open_ring shell /\ shell' = shell ++ firstn 1 shell)) ->
  Forall2 (fun h h' => h' = h \/ (open_ring h /\ h' = h ++ firstn 1 h)) holes holes' ->
  polygon g result opt cs engine ct shell' holes' = polygon g result opt cs engine ct shell holes.
Proof.
  intros Hs Hh.
  assert (E1 : to_points shell' = to_points shell).
  { destruct Hs as [-> | [Ho ->]]; [reflexivity | apply to_points_closing, Ho]. }
  assert (E2 : mapM to_points holes' = mapM to_points holes).
  { induction Hh as [|h h' hs hs' H _ IH]; [reflexivity|]. cbn [mapM]. rewrite IH.
    destruct H as [-> | [Ho ->]]; [reflexivity | rewrite to_points_closing by exact Ho; reflexivity]. }
  unfold polygon. rewrite E1, E2. reflexivity.
Qed.

Lemma removelast_snoc {A} (l : list A) x : removelast (l ++ [x]) = l.
Proof. rewrite removelast_app by discriminate. cbn. apply app_nil_r. Qed.

Lemma removelast_widen l : l <> [] -> removelast (map widen (l ++ firstn 1 l)) = map widen l.
Proof.
  destruct l as [|p l]; [congruence|]. intros _. change (firstn 1 (p :: l)) with [p].
  rewrite map_app. apply removelast_snoc.
Qed.

Lemma widen2 l : rows_of 2 l -> map widen l = map (fun r => r ++ [0%R]) l.
Proof.
  intros H. apply map_ext_in. intros r Hr. unfold rows_of in H. rewrite Forall_forall in H.
  unfold widen. rewrite (H r Hr). reflexivity.
Qed.
Lemma widen3 l : rows_of 3 l -> map widen l = l.
Proof.
  intros H. rewrite <- (map_id l) at 2. apply map_ext_in. intros r Hr. unfold rows_of in H.
  rewrite Forall_forall in H. unfold widen. rewrite (H r Hr). reflexivity.
Qed.

Lemma polygon_one_cell g result opt cs engine ct l :
  open_ring l -> (ct = None \/ ct = Some "polygon"%string) ->
  (rows_of 3 l -> polygon g result opt cs engine ct l [] = ([], Ok (OneCell l (seq 0 (length l))))) /\
  (rows_of 2 l -> polygon g result opt cs engine ct l [] =
     ([], Ok (OneCell (map (fun r => r ++ [0%R]) l) (seq 0 (length l))))).
Proof.
  intros Ho Hc.
  assert (Hne : l <> []) by (intros ->; exact Ho).
  split; intros Hn; destruct (to_points_open _ l Ho Hn) as [E _]; unfold polygon; rewrite E; cbn [mapM];
    destruct Hc as [-> | ->]; cbn [length Nat.eqb String.eqb]; rewrite removelast_widen by exact Hne.
  all: rewrite ?map_length.
  all: change (String.eqb "polygon" "polygon") with true; change (String.eqb "polygon" "") with false; cbv iota.
  all: first [rewrite widen3 by exact Hn | rewrite widen2 by exact Hn]; reflexivity.
Qed.

Lemma polygon_default g result opt cs engine shell holes :
  polygon g result opt cs engine None shell holes =
  polygon g result opt cs engine (Some (if length holes =? 0 then "polygon"%string else "triangle"%string)) shell holes.
Proof.
  unfold polygon. destruct (to_points shell) as [s|e]; [|reflexivity].
  destruct (mapM to_points holes) as [hs|e] eqn:E; [|reflexivity].
  assert (Hl : length hs = length holes) by (apply mapM_Ok, Forall2_len in E; lia).
  rewrite Hl. destruct (length holes =? 0); reflexivity.
Qed.

Lemma polygon_with_holes g result opt cs engine shell holes :
  open_ring shell -> Forall open_ring holes -> holes <> [] ->
  polygon g result opt cs engine (Some "polygon"%string) shell holes = ([], Err ValueError).
Proof.
  intros Hs Hh Hne. unfold polygon.
  destruct shell as [|p shell]; [destruct Hs|]. cbn [to_points].
  assert (E : exists hs, mapM to_points holes = Ok hs /\ hs <> []).
  { clear Hs. assert (K : exists hs, mapM to_points holes = Ok hs).
    { induction Hh as [|h hs Ho _ IH]; [cbn; eauto|]. cbn [mapM].
      destruct h as [|q h]; [destruct Ho|]. cbn [to_points bind].
      destruct hs as [|h2 hs]; [cbn; eauto|].
      destruct IH as (r & ->); [discriminate|]. cbn; eauto. }
    destruct K as (hs & E). exists hs. split; [exact E|]. intros ->.
    apply mapM_Ok, Forall2_len in E. destruct holes; [congruence | discriminate]. }
  destruct E as (hs & -> & Hhs).
  change (String.eqb "polygon" "polygon") with true. cbv iota. destruct hs; [congruence|]. reflexivity.
Qed.

(* ---- the session ---- *)
Definition quiet {A} (m : gm A) : Prop :=
  forall t, exists s, fst (m t) = t ++ s /\ Forall (fun o => ~ session_op o) s.

Lemma quiet_ret {A} (x : A) : quiet (gret x).
Proof. intros t. exists []. split; [cbn; rewrite app_nil_r; reflexivity | constructor]. Qed.
Lemma quiet_err {A} e : quiet (@gerr A e).
Proof. intros t. exists []. split; [cbn; rewrite app_nil_r; reflexivity | constructor]. Qed.
Lemma quiet_lift {A} (r : res A) : quiet (glift r).
Proof. intros t. exists []. split; [cbn; rewrite app_nil_r; reflexivity | constructor]. Qed.
Lemma quiet_call g o : ~ session_op o -> quiet (call g o).
Proof. intros H t. exists [o]. split; [reflexivity | repeat constructor; exact H]. Qed.
Lemma quiet_bind {A B} (m : gm A) (f : A -> gm B) : quiet m -> (forall x, quiet (f x)) -> quiet (gbind m f).
Proof.
  intros Hm Hf t. unfold gbind. destruct (Hm t) as (s & E & Hs). destruct (m t) as [t' [x|e]]; cbn [fst] in E; subst t'.
  - destruct (Hf x (t ++ s)) as (s' & E' & Hs'). exists (s ++ s'). rewrite E', app_assoc.
    split; [reflexivity | apply Forall_app; auto].
  - exists s. auto.
Qed.
Lemma quiet_mapM {A B} (f : A -> gm B) l : (forall x, quiet (f x)) -> quiet (gmapM f l).
Proof.
  intros H. induction l as [|x l IH]; [apply quiet_ret|]. cbn [gmapM].
  apply quiet_bind; [apply H|]. intros y. apply quiet_bind; [exact IH|]. intros ys. apply quiet_ret.
Qed.

Ltac noisy := intros [H | [H | H]]; discriminate.
Lemma quiet_surface g tri cs rl pts : quiet (add_surface g tri cs rl pts).
Proof.
  unfold add_surface. apply quiet_bind; [apply quiet_lift|]. intros sizes.
  apply quiet_bind.
  { apply quiet_mapM. intros rs. destruct (length (fst rs) =? 3); [apply quiet_call; noisy | apply quiet_err]. }
  intros tags. apply quiet_bind; [apply quiet_mapM; intros; apply quiet_call; noisy|]. intros lines.
  destruct tags as [|t0 tags]; [apply quiet_err|].
  apply quiet_bind; [apply quiet_call; noisy|]. intros l.
  apply quiet_bind; [apply quiet_call; noisy|]. intros loop.
  destruct rl; [apply quiet_ret | apply quiet_call; noisy].
Qed.

Lemma quiet_surfaces g tri cs engine shell holes : quiet (surfaces g tri cs engine shell holes).
Proof.
  unfold surfaces. destruct (String.eqb engine "gmsh").
  - apply quiet_bind; [apply quiet_mapM; intros; apply quiet_surface|]. intros tags.
    apply quiet_bind; [apply quiet_call; noisy|]. intros; apply quiet_ret.
  - destruct (String.eqb engine "occ"); [|apply quiet_err].
    apply quiet_bind; [apply quiet_surface|]. intros s. destruct holes; [apply quiet_ret|].
    apply quiet_bind; [apply quiet_mapM; intros; apply quiet_surface|]. intros hs.
    apply quiet_bind; [apply quiet_call; noisy|]. intros; apply quiet_ret.
Qed.

(* the body of the try: initialize, then calls that leave the session open *)
Lemma try_body_trace g result quad opt cs engine shell holes :
  exists mid, fst (try_body g result quad opt cs engine shell holes []) = Initialize :: mid /\
              Forall (fun o => ~ session_op o) mid.
Proof.
  unfold try_body. unfold gbind at 1, call at 1. cbn [app].
  destruct (g [] Initialize) as [k|]; [|exists []; split; [reflexivity | constructor]].
  match goal with |- context [gbind ?a ?b [Initialize]] => assert (Q : quiet (gbind a b)) end.
  { apply quiet_bind; [apply quiet_surfaces|]. intros dim_tags.
    apply quiet_bind; [apply quiet_call; noisy|]. intros _.
    apply quiet_bind; [apply quiet_call; noisy|]. intros _.
    apply quiet_bind.
    { destruct quad; [apply quiet_mapM; intros; apply quiet_call; noisy | apply quiet_ret]. }
    intros _. apply quiet_bind; [apply quiet_call; noisy|]. intros _.
    apply quiet_bind; [destruct opt; [apply quiet_call; noisy | apply quiet_ret]|]. intros _.
    apply quiet_bind; [apply quiet_call; noisy|]. intros _.
    apply quiet_bind; [apply quiet_call; noisy|]. intros _.
    intros t. exists []. cbn. rewrite app_nil_r. split; [reflexivity | constructor]. }
  destruct (Q [Initialize]) as (s & E & Hs). exists s. split; [exact E | exact Hs].
Qed.

Lemma polygon_session g result opt cs engine ct shell holes :
  let t := fst (polygon g result opt cs engine ct shell holes) in
  t = [] \/
  exists mid, Forall (fun o => ~ session_op o) mid /\
    (g (Initialize :: mid) Clear <> None -> t = Initialize :: mid ++ [Clear; Finalize]) /\
    (g (Initialize :: mid) Clear = None -> t = Initialize :: mid ++ [Clear]).
Proof.
  unfold polygon. destruct (to_points shell) as [s|e]; [|left; reflexivity].
  destruct (mapM to_points holes) as [hs|e]; [|left; reflexivity].
  set (ct' := match ct with Some _ => _ | None => _ end). clearbody ct'.
  destruct (String.eqb ct' "polygon"); [destruct hs; left; reflexivity|].
  destruct (String.eqb ct' "quad" || String.eqb ct' "triangle"); [|left; reflexivity].
  right. destruct (try_body_trace g result (String.eqb ct' "quad") opt cs engine s hs) as (mid & E & Hm).
  exists mid. split; [exact Hm|].
  unfold finally, gbind.
  destruct (try_body g result (String.eqb ct' "quad") opt cs engine s hs []) as [t1 r] eqn:Et.
  cbn [fst] in E. subst t1.
  assert (K : exists r', (match r with
     | Ok x => gret (Meshed (fst x) (snd x)) (Initialize :: mid)
     | Err e => (Initialize :: mid, Err e) end) = (Initialize :: mid, r')) by (destruct r; eexists; reflexivity).
  destruct K as (r' & ->). unfold call.
  destruct (g (Initialize :: mid) Clear) as [k|]; split; intros H; try congruence.
  - destruct (g ((Initialize :: mid) ++ [Clear]) Finalize); cbn [fst]; rewrite <- app_assoc; reflexivity.
  - reflexivity.
Qed.

Lemma polygon_bad_engine g result opt cs engine ct shell holes :
  open_ring shell -> Forall open_ring holes -> (ct = "quad" \/ ct = "triangle")%string ->
  engine <> "gmsh"%string -> engine <> "occ"%string -> (forall t o, g t o <> None) ->
  polygon g result opt cs engine (Some ct) shell holes = ([Initialize; Clear; Finalize], Err ValueError).
Proof.
  intros Hs Hh Hct E1 E2 Hg. unfold polygon.
  destruct shell as [|p shell]; [destruct Hs|]. cbn [to_points].
  assert (K : exists hs, mapM to_points holes = Ok hs).
  { induction Hh as [|h hs Ho _ IH]; [cbn; eauto|]. cbn [mapM].
    destruct h as [|q h]; [destruct Ho|]. cbn [to_points bind]. destruct IH as (r & ->). cbn; eauto. }
  destruct K as (hs & ->).
  assert (Et : (String.eqb ct "" = false) /\ String.eqb ct "polygon" = false /\
               (String.eqb ct "quad" || String.eqb ct "triangle") = true)
    by (destruct Hct as [-> | ->]; repeat split; reflexivity).
  destruct Et as (-> & -> & ->).
  unfold finally, try_body, surfaces, gbind, call.
  rewrite (proj2 (String.eqb_neq _ _) E1), (proj2 (String.eqb_neq _ _) E2).
  destruct (g [] Initialize) eqn:G1; [|exfalso; exact (Hg _ _ G1)]. cbn [app gerr].
  destruct (g [Initialize] Clear) eqn:G2; [|exfalso; exact (Hg _ _ G2)]. cbn [app].
  destruct (g [Initialize; Clear] Finalize) eqn:G3; [|exfalso; exact (Hg _ _ G3)]. reflexivity.
Qed.

Lemma polygon_bad_celltype g result opt cs engine ct shell holes :
  open_ring shell -> Forall open_ring holes ->
  ~ In ct [""; "polygon"; "quad"; "triangle"]%string ->
  polygon g result opt cs engine (Some ct) shell holes = ([], Err ValueError).
Proof.
  intros Hs Hh Hct. unfold polygon.
  destruct shell as [|p shell]; [destruct Hs|]. cbn [to_points].
  assert (K : exists hs, mapM to_points holes = Ok hs).
  { induction Hh as [|h hs Ho _ IH]; [cbn; eauto|]. cbn [mapM].
    destruct h as [|q h]; [destruct Ho|]. cbn [to_points bind]. destruct IH as (r & ->). cbn; eauto. }
  destruct K as (hs & ->).
  assert (N : forall x, In x [""; "polygon"; "quad"; "triangle"]%string -> String.eqb ct x = false).
  { intros x Hx. apply String.eqb_neq. intros ->. contradiction. }
  rewrite (N ""%string), (N "polygon"%string), (N "quad"%string), (N "triangle"%string) by (cbn; auto).
  reflexivity.
Qed.
