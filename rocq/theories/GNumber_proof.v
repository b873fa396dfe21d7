From Coq Require Import Ascii.
From Verif Require Import Groups_model Groups_spec Groups_proof GNumber_spec.
Open Scope Z_scope.

Lemma string_mask_numbers {A} (mesh : gmesh A) g g' cg s b c :
  gm_cg mesh = Some cg -> numbered g' -> extends g g' ->
  (c < length cg)%nat -> string_mask mesh g s = Ok b ->
  length b = length cg /\ (nth_error b c = Some true <-> string_selects cg g' s c).
Proof.
  intros Hcg [N1 _] Hext Hc. unfold string_mask. rewrite Hcg.
  destruct (nth_error cg c) as [x|] eqn:Ex; [|apply nth_error_None in Ex; lia].
  assert (Hx : forall k z, dget k g = Some z -> (x = z <-> label_of cg g' c k)).
  { intros k z Hk%dget_In. apply (extends_In _ _ _ _ Hext) in Hk. split.
    - intros ->. exists z; auto.
    - intros (v & Hv & Hi). rewrite Ex in Hv. injection Hv as <-.
      apply (In_dget _ _ _ N1) in Hi, Hk. congruence. }
  unfold string_selects. destruct (tilde s) as [s'|] eqn:Et.
  - destruct (dget s' g) as [z|] eqn:E; [|discriminate]. intros H%Ok_inj. subst b.
    split; [apply map_length|]. rewrite nth_error_map, Ex. cbn [option_map].
    apply tilde_Some in Et. subst s. specialize (Hx _ _ E).
    destruct (Z.eqb_spec x z) as [e|e]; cbn [negb].
    + apply Hx in e. split; [discriminate|]. intros [_ H]. exfalso; exact (H _ eq_refl e).
    + split; auto. intros _. split; [intros Hp; exfalso; eapply Hp; eauto|]. intros k [= <-] HL. apply e, Hx, HL.
  - destruct (dget s g) as [z|] eqn:E; [|discriminate]. intros H%Ok_inj. subst b.
    split; [apply map_length|]. rewrite nth_error_map, Ex. cbn [option_map]. apply tilde_None in Et.
    specialize (Hx _ _ E). destruct (Z.eqb_spec x z) as [e|e].
    + split; auto. intros _. split; [intros _; apply Hx; auto|]. intros k ->. exfalso; eapply Et; eauto.
    + split; [discriminate|]. intros [H _]. exfalso. apply e, Hx, H, Et.
Qed.

Lemma strings_mask_numbers {A} (mesh : gmesh A) g g' cg c :
  gm_cg mesh = Some cg -> numbered g' -> extends g g' -> (c < length cg)%nat ->
  forall l acc b, length acc = length cg -> strings_mask mesh g l acc = Ok b ->
  (nth_error b c = Some true <->
     nth_error acc c = Some true \/ exists s, In s l /\ string_selects cg g' s c).
Proof.
  intros Hcg Hn Hext Hc. induction l as [|s l IH]; intros acc b Ha; cbn [strings_mask].
  - intros H%Ok_inj. subst. split; auto. intros [?|(? & [] & _)]; auto.
  - destruct (string_mask mesh g s) as [m|] eqn:E; [|discriminate]. cbn [bind]. intros H.
    destruct (string_mask_numbers mesh g g' cg s m c Hcg Hn Hext Hc E) as [Hm Hs].
    apply IH in H; [|rewrite map2_length; lia]. rewrite H. rewrite map2_nth_error.
    assert (exists y, nth_error acc c = Some y) as (y & Ey).
    { destruct (nth_error acc c) eqn:En; eauto. apply nth_error_None in En. lia. }
    rewrite Ey in *. destruct (nth_error m c) as [w|] eqn:Ew; [|apply nth_error_None in Ew; lia].
    assert (Some (y || w)%bool = Some true <-> Some y = Some true \/ Some w = Some true) as ->.
    { destruct y, w; cbn; intuition congruence. }
    rewrite Hs. split.
    + intros [[?|?]|(s' & Hs' & ?)]; auto.
      * right; exists s; split; auto; left; auto.
      * right; exists s'; split; auto; right; auto.
    + intros [?|(s' & [<-|Hs'] & ?)]; auto. right; eauto.
Qed.

(* the mask of an entry in terms of the final table *)
Definition exact_in {A} (t : table) (mesh : gmesh A) (g : dict) (e : string * selector A) : Prop :=
  forall km c, (c < length (gm_cells mesh))%nat ->
    evaluated mesh g e km -> settable (length (gm_cells mesh)) km ->
    (hits (length (gm_cells mesh)) (snd (eff km)) c = true <-> entry_selects_numbers t mesh e c).

Lemma exact_in_strings {A} t (mesh : gmesh A) g k sel : numbered t -> extends g t -> aligned mesh ->
  (exists s, sel = SelStr s) \/ (exists l, sel = SelStrs l) -> exact_in t mesh g (k, sel).
Proof.
  intros Hn Hext Ha Hsel [k' m] c Hc [E1 E2] Hset. cbn [fst snd] in *. subst k'.
  unfold aligned in Ha. set (n := length (gm_cells mesh)) in *.
  assert (HM : exists b, m = MBool b /\ (nth_error b c = Some true <-> selects_numbers t mesh sel c)).
  { unfold selects_numbers. destruct Hsel as [(s & ->)|(l & ->)]; cbn [selector_mask] in E2.
    - destruct (string_mask mesh g s) as [b|] eqn:E; [|discriminate]. apply Ok_inj in E2. subst m. exists b. split; [reflexivity|].
      destruct (gm_cg mesh) as [cg|] eqn:Hcg; [|unfold string_mask in E; rewrite Hcg in E; destruct (tilde s); discriminate].
      apply (string_mask_numbers mesh g t cg s b c Hcg Hn Hext ltac:(lia) E).
    - destruct (strings_mask mesh g l _) as [b|] eqn:E; [|discriminate]. apply Ok_inj in E2. subst m. exists b. split; [reflexivity|].
      destruct (gm_cg mesh) as [cg|] eqn:Hcg.
      + rewrite (strings_mask_numbers mesh g t cg c Hcg Hn Hext ltac:(lia) _ _ _ (eq_trans (repeat_length _ _) (eq_sym Ha)) E).
        split; auto. intros [H|H]; auto. rewrite repeat_nth_error in H by auto. discriminate.
      + destruct l as [|s l]; cbn [strings_mask] in E.
        * apply Ok_inj in E. subst b. rewrite repeat_nth_error by auto. split; [discriminate|tauto].
        * unfold string_mask in E. rewrite Hcg in E. destruct (tilde s); discriminate. }
  destruct HM as (b & -> & Hs). unfold settable in Hset. cbn [snd] in Hset.
  unfold eff. cbn [fst snd]. unfold entry_selects_numbers. cbn [fst snd].
  destruct (tilde k) as [k'|] eqn:Et; cbn [snd].
  - rewrite hits_not by auto. rewrite hits_bool, Hs. apply tilde_Some in Et. subst k. split.
    + intros H. split; auto. intros Hp. exfalso; eapply Hp; eauto.
    + intros [_ H]. eauto.
  - rewrite hits_bool, Hs. apply tilde_None in Et. split.
    + intros H. split; auto. intros k' ->. exfalso; eapply Et; eauto.
    + intros [H _]. auto.
Qed.

Lemma exact_in_other {A} t (mesh : gmesh A) g k sel :
  (forall s, sel <> SelStr s) -> (forall l, sel <> SelStrs l) -> exact mesh g (k, sel) -> exact_in t mesh g (k, sel).
Proof.
  intros H1 H2 H km c Hc Hev Hset. rewrite (H km c Hc Hev Hset). unfold entry_selects, entry_selects_numbers. cbn [fst snd].
  replace (selects_numbers t mesh sel c) with (selects mesh sel c); [tauto|].
  unfold selects_numbers. destruct sel; try (destruct (gm_cg mesh); reflexivity); [exfalso; eapply H1; eauto|exfalso; eapply H2; eauto].
Qed.

Lemma dict_numbers {A} o (mesh : gmesh A) t d default arr t' : numbered t -> aligned mesh ->
  (forall e, In e d -> match snd e with
                       | SelCall f => plain (fst e) \/ exists b, f mesh = MBool b
                       | _ => True end) ->
  initialize_group_array o mesh t (GDict d) default = Ok (arr, t') ->
  forall c, (c < length (gm_cells mesh))%nat ->
  exists k, named t' arr c k /\
    ((exists e, last_such (fun e => entry_selects_numbers t' mesh e c) d e /\ key_name (fst e) k) \/
     (Forall (fun e => ~ entry_selects_numbers t' mesh e c) d /\
      base_name (labelled mesh) (ignore_groups o) (the_default o default) c k)).
Proof.
  intros Hn Ha Hd H c Hc.
  destruct (initialize_spec _ _ _ _ _ _ _ Hn Ha H) as (Hn' & _ & _ & kms & gb & E1 & E2 & E3 & E4 & E5 & E6). cbn [entries_of] in E4.
  destruct (E6 c Hc) as (k & Hk & Hor). exists k. split; auto.
  assert (HPQ : forall e km, In e d -> In km kms -> evaluated mesh gb e km ->
     (hits (length (gm_cells mesh)) (snd (eff km)) c = true <-> entry_selects_numbers t' mesh e c)).
  { intros [key sel] km He Hkm Hev. specialize (Hd _ He). cbn [fst snd] in Hd.
    assert (HE : exact_in t' mesh gb (key, sel)).
    { destruct sel as [f|s|l|m|].
      - apply exact_in_other; try discriminate. destruct Hd as [Hp|(b & Hb)]; [apply exact_call_plain; auto|eapply exact_call_bool; eauto].
      - eapply exact_in_strings; eauto.
      - eapply exact_in_strings; eauto.
      - apply exact_in_other; try discriminate. apply exact_arr.
      - apply exact_in_other; try discriminate. apply exact_other. }
    apply (HE km c Hc Hev). rewrite Forall_forall in E5; auto. }
  destruct Hor as [(km & Hlast & ->)|[Hf Hb]].
  - left. destruct (last_such_Forall2 _ _ _ _ _ E4 HPQ _ Hlast) as (e & He & Hev).
    exists e. split; auto. destruct Hev as [Ek _]. rewrite <- Ek. unfold key_name, eff.
    destruct (tilde (fst km)) as [k'|] eqn:Et; cbn [fst].
    + left. apply tilde_Some; auto.
    + right. split; auto. apply tilde_None; auto.
  - right. split; auto. apply Forall_forall. intros e He Hs.
    apply In_nth_error in He as (i & Hi).
    destruct (Forall2_nth_error _ _ _ _ _ E4 Hi) as (km & Ekm & Hn2).
    pose proof (nth_error_In _ _ Ekm) as Hkm.
    apply (HPQ e km (nth_error_In _ _ Hi) Hkm Hn2) in Hs.
    rewrite Forall_forall in Hf. rewrite (Hf km Hkm) in Hs. discriminate.
Qed.
