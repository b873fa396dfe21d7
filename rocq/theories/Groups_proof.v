From Coq Require Import FinFun Ascii.
From Verif Require Import Groups_model Groups_spec.
Open Scope Z_scope.

(* ---- dictionaries ---- *)
Lemma dget_In k z d : dget k d = Some z -> In (k, z) d.
Proof.
  induction d as [|[k' v] d IH]; cbn [dget]; [discriminate|].
  destruct (String.eqb_spec k k') as [->|N]; [intros [= ->]; left; auto|right; auto].
Qed.

Lemma In_dget k z d : NoDup (map fst d) -> In (k, z) d -> dget k d = Some z.
Proof.
  induction d as [|[k' v] d IH]; cbn [dget map fst]; [intros _ []|].
  intros Hn; inversion Hn as [|? ? N1 N2]; subst. intros [[= -> ->]|H].
  - rewrite String.eqb_refl; auto.
  - destruct (String.eqb_spec k k') as [->|N]; auto.
    exfalso; apply N1. change k' with (fst (k', z)). apply in_map; auto.
Qed.

Lemma dget_None k d : dget k d = None <-> ~ In k (map fst d).
Proof.
  induction d as [|[k' v] d IH]; cbn [dget map fst In]; [tauto|].
  destruct (String.eqb_spec k k') as [->|N]; [split; [discriminate|tauto]|].
  rewrite IH. split; [intros H [E|?]; [congruence|tauto]|tauto].
Qed.

Lemma inv_get_In z k d : inv_get z d = Some k -> In (k, z) d.
Proof.
  induction d as [|[k' v] d IH]; cbn [inv_get]; [discriminate|].
  destruct (inv_get z d) as [k2|]; [intros [= ->]; right; auto|].
  destruct (Z.eqb_spec v z) as [->|]; [intros [= ->]; left; auto|discriminate].
Qed.

Lemma In_inv_get z k d : NoDup (map snd d) -> In (k, z) d -> inv_get z d = Some k.
Proof.
  induction d as [|[k' v] d IH]; cbn [inv_get map snd]; [intros _ []|].
  intros Hn; inversion Hn as [|? ? N1 N2]; subst. intros [[= -> ->]|H].
  - destruct (inv_get z d) as [k2|] eqn:E.
    + exfalso; apply N1. apply inv_get_In in E. change z with (snd (k2, z)). apply in_map; auto.
    + rewrite Z.eqb_refl; auto.
  - rewrite IH by auto. reflexivity.
Qed.

Lemma inv_get_None z d : inv_get z d = None <-> ~ In z (map snd d).
Proof.
  induction d as [|[k' v] d IH]; cbn [inv_get map snd In]; [tauto|].
  destruct (inv_get z d) as [k2|] eqn:E.
  - split; [discriminate|]. intros H; exfalso; apply H; right. apply inv_get_In in E.
    change z with (snd (k2, z)). apply in_map; auto.
  - destruct (Z.eqb_spec v z) as [->|N]; [split; [discriminate|tauto]|].
    split; [intros _ [E'|E']; [congruence|apply IH in E'; auto]|auto].
Qed.

Lemma mem_spec k l : mem k l = true <-> In k l.
Proof.
  unfold mem. rewrite existsb_exists. split.
  - intros (x & Hx & E). apply String.eqb_eq in E; subst; auto.
  - intros H; exists k; split; auto. apply String.eqb_refl.
Qed.

(* ---- tables ---- *)
Lemma numbered_nil : numbered [].
Proof. split; [constructor|reflexivity]. Qed.

Lemma map_of_nat_NoDup l : NoDup l -> NoDup (map Z.of_nat l).
Proof. apply Injective_map_NoDup. intros x y; lia. Qed.

Lemma numbered_values t : numbered t -> NoDup (map snd t).
Proof. intros [_ H]; rewrite H. apply map_of_nat_NoDup, seq_NoDup. Qed.

Lemma numbered_nonneg t k z : numbered t -> In (k, z) t -> 0 <= z.
Proof.
  intros [_ H] Hin. apply (in_map snd) in Hin. rewrite H in Hin. cbn [snd] in Hin.
  apply in_map_iff in Hin as (n & <- & _). lia.
Qed.

Lemma extends_refl t : extends t t.
Proof. exists []; rewrite app_nil_r; auto. Qed.
Lemma extends_trans t u w : extends t u -> extends u w -> extends t w.
Proof. intros [e ->] [e' ->]. exists (e ++ e'). rewrite app_assoc; auto. Qed.
Lemma extends_In t u k z : extends t u -> In (k, z) t -> In (k, z) u.
Proof. intros [e ->] H. apply in_app_iff; auto. Qed.

Lemma get_group_number_spec k g n g' :
  numbered g -> get_group_number k g = (n, g') ->
  numbered g' /\ extends g g' /\ In (k, n) g'.
Proof.
  intros Hn. unfold get_group_number. destruct (dget k g) as [z|] eqn:E.
  - intros [= <- <-]. split; [auto|]. split; [apply extends_refl|apply dget_In; auto].
  - intros [= <- <-]. destruct Hn as [H1 H2]. split; [|split].
    + split.
      * rewrite map_app. cbn [map fst]. apply dget_None in E.
        clear H2. induction g as [|[k' v] g IH]; cbn [map fst app] in *.
        { constructor; [intros []|constructor]. }
        inversion H1 as [|? ? N1 N2]; subst. constructor.
        { rewrite in_app_iff. intros [?|[<-|[]]]; [auto|]. apply E; left; auto. }
        { apply IH; auto. intros ?; apply E; right; auto. }
      * rewrite map_app, app_length, H2. cbn [length map snd].
        rewrite Nat.add_1_r, seq_S, map_app. reflexivity.
    + exists [(k, Z.of_nat (length g))]; auto.
    + apply in_app_iff; right; left; auto.
Qed.

(* ---- names ---- *)
Definition nm (g : dict) (arr : list Z) (c : nat) : option string :=
  match nth_error arr c with Some z => inv_get z g | None => None end.

Definition valid (g : dict) (arr : list Z) : Prop :=
  Forall (fun z => z = -1 \/ In z (map snd g)) arr.

Lemma extends_vals g g' z : extends g g' -> In z (map snd g) -> In z (map snd g').
Proof. intros [e ->] H. rewrite map_app, in_app_iff; auto. Qed.

Lemma valid_ext g g' arr : extends g g' -> valid g arr -> valid g' arr.
Proof.
  intros He. apply Forall_impl. intros z [H|H]; auto. right. eapply extends_vals; eauto.
Qed.

Lemma inv_get_ext g g' z : numbered g' -> extends g g' -> In z (map snd g) ->
  inv_get z g' = inv_get z g.
Proof.
  intros Hn He Hz. destruct (inv_get z g) as [k|] eqn:E.
  - apply inv_get_In in E. apply In_inv_get; [apply numbered_values; auto|]. eapply extends_In; eauto.
  - apply inv_get_None in E. contradiction.
Qed.

Lemma inv_get_neg g : numbered g -> inv_get (-1) g = None.
Proof.
  intros Hn. destruct (inv_get (-1) g) as [k|] eqn:E; auto.
  apply inv_get_In in E. apply numbered_nonneg in E; [lia|auto].
Qed.

Lemma nm_ext g g' arr c : numbered g -> numbered g' -> extends g g' -> valid g arr ->
  nm g' arr c = nm g arr c.
Proof.
  intros Hn Hn' He Hv. unfold nm. destruct (nth_error arr c) as [z|] eqn:E; auto.
  apply nth_error_In in E. unfold valid in Hv; rewrite Forall_forall in Hv. destruct (Hv z E) as [->|Hz].
  - rewrite !inv_get_neg; auto.
  - apply inv_get_ext; auto.
Qed.

Lemma nm_named g arr c k : numbered g -> nm g arr c = Some k <-> named g arr c k.
Proof.
  intros Hn. unfold nm, named. split.
  - destruct (nth_error arr c) as [z|]; [|discriminate]. intros H; exists z; split; auto.
    apply inv_get_In; auto.
  - intros (z & -> & Hz). apply In_inv_get; auto. apply numbered_values; auto.
Qed.

Lemma named_unique g arr c k k' : numbered g -> named g arr c k -> named g arr c k' -> k = k'.
Proof. intros Hn H1 H2. apply nm_named in H1, H2; auto. congruence. Qed.

(* arr' is arr with n at the positions given by [hit] *)
Definition updated (hit : nat -> bool) (n : Z) (arr arr' : list Z) : Prop :=
  length arr' = length arr /\
  forall c x, nth_error arr c = Some x -> nth_error arr' c = Some (if hit c then n else x).

Lemma updated_nm hit n k g arr arr' c : numbered g -> In (k, n) g -> updated hit n arr arr' ->
  (c < length arr)%nat -> nm g arr' c = if hit c then Some k else nm g arr c.
Proof.
  intros Hn Hk [_ Hu] Hc. unfold nm.
  destruct (nth_error arr c) as [x|] eqn:E; [|apply nth_error_None in E; lia].
  rewrite (Hu c x E). destruct (hit c); auto. apply In_inv_get; auto. apply numbered_values; auto.
Qed.

Lemma updated_valid hit n k g arr arr' : In (k, n) g -> updated hit n arr arr' ->
  valid g arr -> valid g arr'.
Proof.
  intros Hk [Hl Hu] Hv. unfold valid in *. rewrite Forall_forall in *. intros z Hz.
  apply In_nth_error in Hz as (c & Hc).
  assert (c < length arr')%nat by (apply nth_error_Some; congruence).
  destruct (nth_error arr c) as [x|] eqn:E; [|apply nth_error_None in E; lia].
  rewrite (Hu c x E) in Hc. injection Hc as <-. destruct (hit c).
  - right. change n with (snd (k, n)). apply in_map; auto.
  - apply Hv. eapply nth_error_In; eauto.
Qed.

Lemma mask_set_updated (b : list bool) n arr : length b = length arr ->
  updated (fun c => nth c b false) n arr (mask_set n b arr).
Proof.
  intros Hl. split; [apply mask_set_length|]. intros c x Hx.
  rewrite mask_set_nth_error by auto.
  assert (c < length b)%nat by (rewrite Hl; apply nth_error_Some; congruence).
  destruct (nth_error b c) as [y|] eqn:E; [|apply nth_error_None in E; lia].
  rewrite (nth_error_nth _ _ false E). destruct y; auto.
Qed.

Definition hits (n : nat) (m : npmask) (c : nat) : bool :=
  match m with
  | MBool b => nth c b false
  | MInt ids => existsb (fun i => match norm_index n i with Some p => (p =? c)%nat | None => false end) ids
  end.

Lemma upd_updated {B} (x : B) p a : forall c y, nth_error a c = Some y ->
  nth_error (upd p x a) c = Some (if (p =? c)%nat then x else y).
Proof.
  intros c y Hy. rewrite upd_nth_error.
  assert (c < length a)%nat as Hc by (apply nth_error_Some; congruence).
  destruct (Nat.eqb_spec p c) as [->|N].
  - destruct (Nat.ltb_spec c (length a)); try lia. reflexivity.
  - cbn; auto.
Qed.

Lemma set_ids_spec {B} (x : B) ids a a' :
  set_ids x ids a = Ok a' ->
  length a' = length a /\
  (forall i, In i ids -> exists p, norm_index (length a) i = Some p) /\
  forall c y, nth_error a c = Some y ->
    nth_error a' c = Some (if hits (length a) (MInt ids) c then x else y).
Proof.
  revert a; induction ids as [|i ids IH]; intros a; cbn [set_ids].
  - intros H%Ok_inj; subst. split; auto. split; [intros ? []|]. intros; cbn; auto.
  - destruct (norm_index (length a) i) as [p|] eqn:E; [|discriminate].
    intros H. apply IH in H. rewrite upd_length in H. destruct H as (Hl & Hids & Hat).
    split; auto. split; [intros j [<-|Hj]; eauto|].
    intros c y Hy. pose proof (upd_updated x p a c y Hy) as Hu. apply Hat in Hu.
    rewrite Hu. cbn [hits existsb]. rewrite E. cbn [hits] in *.
    destruct (existsb _ ids); [rewrite orb_true_r; auto|]. rewrite orb_false_r. auto.
Qed.

Lemma np_set_updated n m arr arr' : np_set n m arr = Ok arr' ->
  updated (hits (length arr) m) n arr arr'.
Proof.
  destruct m as [b|ids]; cbn [np_set].
  - destruct (Nat.eqb_spec (length b) (length arr)); [|discriminate]. intros H%Ok_inj; subst.
    apply mask_set_updated; auto.
  - intros H. apply set_ids_spec in H as (Hl & _ & Hat). split; auto.
Qed.

(* ---- loop over the labels ---- *)
Definition label_step (cg : list Z) (ignore : list string) (c : nat) (acc : option string)
  (kv : string * Z) : option string :=
  if mem (fst kv) ignore then acc
  else match nth_error cg c with
       | Some x => if x =? snd kv then Some (fst kv) else acc
       | None => acc end.

Lemma nth_map_eqb cg (v : Z) c :
  nth c (map (fun x => x =? v) cg) false =
  match nth_error cg c with Some x => x =? v | None => false end.
Proof.
  revert c; induction cg as [|y cg IH]; intros [|c]; cbn; auto.
Qed.

Lemma apply_labels_spec cg ignore labels : forall arr g arr' g',
  numbered g -> valid g arr -> length cg = length arr ->
  apply_labels cg ignore labels arr g = (arr', g') ->
  numbered g' /\ extends g g' /\ valid g' arr' /\ length arr' = length arr /\
  forall c, (c < length arr)%nat ->
    nm g' arr' c = fold_left (label_step cg ignore c) labels (nm g arr c).
Proof.
  induction labels as [|[k v] ls IH]; intros arr g arr' g' Hn Hv Hl; cbn [apply_labels].
  - intros H; apply pair_equal_spec in H as [<- <-]. repeat split; auto using extends_refl; apply Hn.
  - destruct (mem k ignore) eqn:E.
    + intros H. destruct (IH _ _ _ _ Hn Hv Hl H) as (A1 & A2 & A3 & A4 & A5).
      repeat split; auto; try apply A1. intros c Hc. rewrite A5 by auto. cbn [fold_left].
      unfold label_step at 3. cbn [fst]. rewrite E. auto.
    + destruct (get_group_number k g) as [n g1] eqn:Eg.
      destruct (get_group_number_spec _ _ _ _ Hn Eg) as (B1 & B2 & B3).
      assert (Hu : updated (fun c => nth c (map (fun x => x =? v) cg) false) n arr
                    (mask_set n (map (fun x => x =? v) cg) arr)).
      { apply mask_set_updated. rewrite map_length; auto. }
      intros H.
      assert (Hl' : length (mask_set n (map (fun x => x =? v) cg) arr) = length arr)
        by apply mask_set_length.
      assert (Hv1 : valid g1 arr) by (eapply valid_ext; eauto).
      destruct (IH _ _ _ _ B1 (updated_valid _ _ _ _ _ _ B3 Hu Hv1) (eq_trans Hl (eq_sym Hl')) H)
        as (A1 & A2 & A3 & A4 & A5).
      split; auto. split; [eapply extends_trans; eauto|]. split; auto. split; [congruence|].
      intros c Hc. rewrite A5 by (rewrite Hl'; auto). cbn [fold_left].
      f_equal. rewrite (updated_nm _ _ _ _ _ _ _ B1 B3 Hu Hc), nth_map_eqb.
      unfold label_step. cbn [fst snd]. rewrite E.
      rewrite (nm_ext _ _ _ _ Hn B1 B2 Hv). destruct (nth_error cg c); auto.
Qed.

(* meaning of the fold *)
Lemma label_fold_spec cg ignore c labels : forall acc r,
  fold_left (label_step cg ignore c) labels acc = r ->
  (exists k, r = Some k /\ label_of cg labels c k /\ ~ In k ignore) \/
  (r = acc /\ forall k, label_of cg labels c k -> In k ignore).
Proof.
  induction labels as [|[k v] ls IH]; intros acc r; cbn [fold_left].
  - intros <-. right. split; auto. intros k (z & _ & []).
  - intros H. apply IH in H as [(k' & -> & (z & Hz & Hi) & Hn)|[-> H]].
    + left. exists k'. split; auto. split; auto. exists z; split; auto. right; auto.
    + unfold label_step. cbn [fst snd]. destruct (mem k ignore) eqn:E.
      * right. split; auto. intros k' (z & Hz & [[= -> ->]|Hi]); [apply mem_spec; auto|].
        apply H. exists z; auto.
      * destruct (nth_error cg c) as [x|] eqn:Ec.
        { destruct (Z.eqb_spec x v) as [->|N].
          - left. exists k. split; auto. split; [exists v; split; auto; left; auto|].
            intros Hi. apply mem_spec in Hi. congruence.
          - right. split; auto. intros k' (z & Hz & [[= -> ->]|Hi]); [congruence|].
            apply H. exists z; auto. }
        { right. split; auto. intros k' (z & Hz & _). congruence. }
Qed.

(* ---- loop over the entries ---- *)
Lemma dget_ext g g' k z : numbered g' -> extends g g' -> dget k g = Some z -> dget k g' = Some z.
Proof.
  intros [Hn _] He H. apply dget_In in H. apply In_dget; auto. eapply extends_In; eauto.
Qed.

Lemma string_mask_ext {A} (mesh : gmesh A) g g' s m : numbered g' -> extends g g' ->
  string_mask mesh g s = Ok m -> string_mask mesh g' s = Ok m.
Proof.
  intros Hn He. unfold string_mask. destruct (gm_cg mesh) as [cg|]; [|discriminate].
  destruct (tilde s) as [s'|].
  - destruct (dget s' g) as [z|] eqn:E; [|discriminate]. rewrite (dget_ext _ _ _ _ Hn He E). auto.
  - destruct (dget s g) as [z|] eqn:E; [|discriminate]. rewrite (dget_ext _ _ _ _ Hn He E). auto.
Qed.

Lemma strings_mask_ext {A} (mesh : gmesh A) g g' l : numbered g' -> extends g g' ->
  forall acc m, strings_mask mesh g l acc = Ok m -> strings_mask mesh g' l acc = Ok m.
Proof.
  intros Hn He. induction l as [|s l IH]; intros acc m; cbn [strings_mask]; auto.
  destruct (string_mask mesh g s) as [b|] eqn:E; [|discriminate].
  rewrite (string_mask_ext _ _ _ _ _ Hn He E). cbn [bind]. apply IH.
Qed.

Lemma selector_mask_ext {A} (mesh : gmesh A) g g' sel m : numbered g' -> extends g g' ->
  selector_mask mesh g sel = Ok m -> selector_mask mesh g' sel = Ok m.
Proof.
  intros Hn He. destruct sel as [f|s|l|[b|ids]|]; cbn [selector_mask]; auto.
  - destruct (string_mask mesh g s) as [b|] eqn:E; [|discriminate].
    rewrite (string_mask_ext _ _ _ _ _ Hn He E). auto.
  - destruct (strings_mask mesh g l _) as [b|] eqn:E; [|discriminate].
    rewrite (strings_mask_ext _ _ _ _ Hn He _ _ E). auto.
Qed.

(* effective name and mask of an entry *)
Definition eff (km : string * npmask) : string * npmask :=
  match tilde (fst km) with Some k' => (k', np_not (snd km)) | None => km end.

Definition entry_step (n : nat) (c : nat) (acc : option string) (km : string * npmask)
  : option string :=
  if hits n (snd (eff km)) c then Some (fst (eff km)) else acc.

Definition evaluated {A} (mesh : gmesh A) (g : dict) (e : string * selector A)
  (km : string * npmask) : Prop :=
  fst km = fst e /\ selector_mask mesh g (snd e) = Ok (snd km).

Definition settable (n : nat) (km : string * npmask) : Prop :=
  match snd km with MBool b => length b = n | MInt _ => True end.

Lemma apply_entries_spec {A} (mesh : gmesh A) es : forall arr g arr' g',
  numbered g -> valid g arr ->
  apply_entries mesh es arr g = Ok (arr', g') ->
  numbered g' /\ extends g g' /\ valid g' arr' /\ length arr' = length arr /\
  exists kms, Forall2 (evaluated mesh g') es kms /\ Forall (settable (length arr)) kms /\
    forall c, (c < length arr)%nat ->
      nm g' arr' c = fold_left (entry_step (length arr) c) kms (nm g arr c).
Proof.
  induction es as [|[k sel] es IH]; intros arr g arr' g' Hn Hv; cbn [apply_entries].
  - intros H%Ok_inj. apply pair_equal_spec in H as [<- <-].
    repeat split; auto using extends_refl; try apply Hn. exists []. repeat split; auto.
  - destruct (selector_mask mesh g sel) as [m|] eqn:Em; [|discriminate]. cbn [bind].
    destruct (match tilde k with Some k' => (k', np_not m) | None => (k, m) end) as [k1 m1] eqn:Et.
    destruct (get_group_number k1 g) as [n g1] eqn:Eg.
    destruct (np_set n m1 arr) as [a1|] eqn:Ea; [|discriminate]. cbn [bind].
    destruct (get_group_number_spec _ _ _ _ Hn Eg) as (B1 & B2 & B3).
    pose proof (np_set_updated _ _ _ _ Ea) as Hu.
    assert (Hv1 : valid g1 arr) by (eapply valid_ext; eauto).
    intros H. destruct (IH _ _ _ _ B1 (updated_valid _ _ _ _ _ _ B3 Hu Hv1) H)
      as (A1 & A2 & A3 & A4 & kms & A5 & A6 & A7).
    pose proof (proj1 Hu) as Hl.
    split; auto. split; [eapply extends_trans; eauto|]. split; auto. split; [congruence|].
    assert (Heff : eff (k, m) = (k1, m1)).
    { unfold eff. cbn [fst snd]. destruct (tilde k); auto. }
    exists ((k, m) :: kms). split; [|split].
    + constructor; auto. split; auto. cbn [fst snd].
      eapply selector_mask_ext with (g := g); eauto. eapply extends_trans; eauto.
    + rewrite <- Hl. constructor; auto. unfold settable. cbn [snd].
      destruct m as [b|]; auto. rewrite Hl.
      unfold eff in Heff. cbn [fst snd] in Heff. 
      assert (exists b', m1 = MBool b' /\ length b' = length b) as (b' & -> & <-).
      { destruct (tilde k); injection Heff as <- <-; eexists; split; try reflexivity.
        apply map_length. }
      cbn [np_set] in Ea. destruct (Nat.eqb_spec (length b') (length arr)); auto. discriminate.
    + intros c Hc. rewrite A7 by (rewrite Hl; auto). cbn [fold_left]. rewrite Hl. f_equal.
      unfold entry_step. rewrite Heff. cbn [fst snd].
      rewrite (updated_nm _ _ _ _ _ _ _ B1 B3 Hu Hc).
      rewrite (nm_ext _ _ _ _ Hn B1 B2 Hv). auto.
Qed.

Lemma entry_fold_spec n c kms : forall acc r,
  fold_left (entry_step n c) kms acc = r ->
  (exists km, last_such (fun km => hits n (snd (eff km)) c = true) kms km /\ r = Some (fst (eff km))) \/
  (r = acc /\ Forall (fun km => hits n (snd (eff km)) c = false) kms).
Proof.
  induction kms as [|km kms IH]; intros acc r; cbn [fold_left].
  - intros <-. right; auto.
  - intros H. apply IH in H as [(km' & (l1 & l2 & -> & Hp & Hf) & ->)|[-> H]].
    + left. exists km'. split; auto. exists (km :: l1), l2. auto.
    + unfold entry_step. destruct (hits n (snd (eff km)) c) eqn:E.
      * left. exists km. split; auto. exists [], kms. split; auto. split; auto.
        eapply Forall_impl; [|exact H]. cbn. intros; congruence.
      * right; split; auto.
Qed.

(* ---- the whole function ---- *)
Lemma valid_named g arr c : numbered g -> valid g arr -> (c < length arr)%nat ->
  (nth_error arr c = Some (-1) /\ nm g arr c = None) \/
  (exists z k, nth_error arr c = Some z /\ z <> -1 /\ nm g arr c = Some k).
Proof.
  intros Hn Hv Hc. unfold nm.
  destruct (nth_error arr c) as [z|] eqn:E; [|apply nth_error_None in E; lia].
  unfold valid in Hv; rewrite Forall_forall in Hv. pose proof (nth_error_In _ _ E) as Hz.
  destruct (Z.eq_dec z (-1)) as [->|N].
  - left. split; auto. apply inv_get_neg; auto.
  - right. destruct (Hv z Hz) as [?|Hs]; [congruence|].
    destruct (inv_get z g) as [k|] eqn:Ei; eauto. apply inv_get_None in Ei. contradiction.
Qed.

(* arrays after the labels *)
Definition base_array {A} (o : options) (mesh : gmesh A) (g : dict) : list Z * dict :=
  let arr := repeat (-1) (length (gm_cells mesh)) in
  match gm_cg mesh, gm_labels mesh with
  | Some cg, Some labels => apply_labels cg (ignore_groups o) labels arr g
  | _, _ => (arr, g)
  end.

Definition entries_of {A} (mesh : gmesh A) (group : group_arg A) : list (string * selector A) :=
  match group with
  | GNone => []
  | GStr s => if String.eqb s "" then []
              else [(s, SelArr (MBool (repeat true (length (gm_cells mesh)))))]
  | GDict d => d
  end.

Definition fill_default (d : string) (arr : list Z) (g : dict) : list Z * dict :=
  if existsb (fun x => x =? -1) arr then
    let '(n, g) := get_group_number d g in (mask_set n (map (fun x => x =? -1) arr) arr, g)
  else (arr, g).

Lemma initialize_eq {A} o (mesh : gmesh A) g group default :
  initialize_group_array o mesh g group default =
  let '(arr, g1) := base_array o mesh g in
  let! ag := apply_entries mesh (entries_of mesh group) arr g1 in
  Ok (fill_default (the_default o default) (fst ag) (snd ag)).
Proof.
  unfold initialize_group_array, base_array.
  set (x := match gm_cg mesh with Some cg => _ | None => _ end). destruct x as [arr g1].
  assert (E : match group with
     | GNone => Ok (arr, g1)
     | GStr s => if String.eqb s "" then Ok (arr, g1)
                 else apply_entries mesh [(s, SelArr (MBool (repeat true (length (gm_cells mesh)))))] arr g1
     | GDict d => apply_entries mesh d arr g1
     end = apply_entries mesh (entries_of mesh group) arr g1).
  { destruct group as [|s|d]; cbn [entries_of apply_entries]; auto.
    destruct (String.eqb s ""); auto. }
  rewrite E. destruct (apply_entries mesh (entries_of mesh group) arr g1) as [[a g2]|]; auto.
  cbn [bind fst snd]. unfold fill_default, the_default.
  destruct (existsb _ a); auto. destruct (get_group_number _ g2); auto.
Qed.

Lemma fill_default_spec d arr g arr' g' : numbered g -> valid g arr ->
  fill_default d arr g = (arr', g') ->
  numbered g' /\ extends g g' /\ length arr' = length arr /\
  forall c, (c < length arr)%nat ->
    nm g' arr' c = match nm g arr c with Some k => Some k | None => Some d end.
Proof.
  intros Hn Hv. unfold fill_default. destruct (existsb _ arr) eqn:E.
  - destruct (get_group_number d g) as [n g1] eqn:Eg.
    destruct (get_group_number_spec _ _ _ _ Hn Eg) as (B1 & B2 & B3).
    intros H; apply pair_equal_spec in H as [<- <-].
    assert (Hu : updated (fun c => nth c (map (fun x => x =? -1) arr) false) n arr
                    (mask_set n (map (fun x => x =? -1) arr) arr)).
    { apply mask_set_updated. rewrite map_length; auto. }
    split; auto. split; auto. split; [apply Hu|]. intros c Hc.
    rewrite (updated_nm _ _ _ _ _ _ _ B1 B3 Hu Hc), nth_map_eqb, (nm_ext _ _ _ _ Hn B1 B2 Hv).
    destruct (valid_named g arr c Hn Hv Hc) as [[-> ->]|(z & k & -> & N & ->)]; auto.
    destruct (Z.eqb_spec z (-1)); [contradiction|auto].
  - intros H; apply pair_equal_spec in H as [<- <-].
    split; auto. split; [apply extends_refl|]. split; auto. intros c Hc.
    destruct (valid_named g arr c Hn Hv Hc) as [[Hz _]|(z & k & _ & _ & ->)]; auto.
    exfalso. apply nth_error_In in Hz.
    assert (existsb (fun x => x =? -1) arr = true); [|congruence].
    apply existsb_exists; exists (-1); auto.
Qed.

Lemma valid_repeat g n : valid g (repeat (-1) n).
Proof. apply Forall_forall. intros x Hx. apply repeat_spec in Hx; auto. Qed.

Lemma nm_repeat g n c : numbered g -> nm g (repeat (-1) n) c = None.
Proof.
  intros Hn. unfold nm. destruct (nth_error (repeat (-1) n) c) as [z|] eqn:E; auto.
  apply nth_error_In, repeat_spec in E as ->. apply inv_get_neg; auto.
Qed.

Lemma base_array_spec {A} o (mesh : gmesh A) g arr g' : numbered g -> aligned mesh ->
  base_array o mesh g = (arr, g') ->
  numbered g' /\ extends g g' /\ valid g' arr /\ length arr = length (gm_cells mesh) /\
  forall c, (c < length (gm_cells mesh))%nat -> forall d,
    exists k, base_name (labelled mesh) (ignore_groups o) d c k /\
              match nm g' arr c with Some k' => k' | None => d end = k.
Proof.
  intros Hn Ha. unfold base_array, aligned, labelled in *.
  destruct (gm_cg mesh) as [cg|] eqn:E1; [destruct (gm_labels mesh) as [labels|] eqn:E2|].
  - intros H. apply apply_labels_spec in H as (A1 & A2 & A3 & A4 & A5); auto using valid_repeat.
    2: rewrite repeat_length; auto.
    rewrite repeat_length in *. repeat split; auto; try apply A1. intros c Hc d.
    rewrite A5 by auto. rewrite nm_repeat by auto.
    destruct (label_fold_spec cg (ignore_groups o) c labels None _ eq_refl)
      as [(k & -> & B1 & B2)|[-> B]].
    + exists k. split; auto. eapply bn_label; eauto.
    + exists d. split; auto. apply bn_default. intros ? ? k [= <- <-]. apply B.
  - intros H; apply pair_equal_spec in H as [<- <-].
    repeat split; auto using extends_refl, valid_repeat, repeat_length; try apply Hn.
    intros c Hc d. exists d. rewrite nm_repeat by auto. split; auto.
    apply bn_default. intros; discriminate.
  - intros H; apply pair_equal_spec in H as [<- <-].
    repeat split; auto using extends_refl, valid_repeat, repeat_length; try apply Hn.
    intros c Hc d. exists d. rewrite nm_repeat by auto. split; auto.
    apply bn_default. intros; discriminate.
Qed.

Lemma initialize_spec {A} o (mesh : gmesh A) g group default arr g' : numbered g -> aligned mesh ->
  initialize_group_array o mesh g group default = Ok (arr, g') ->
  numbered g' /\ extends g g' /\ length arr = length (gm_cells mesh) /\
  exists kms gb, extends (snd (base_array o mesh g)) gb /\ extends gb g' /\ numbered gb /\
    Forall2 (evaluated mesh gb) (entries_of mesh group) kms /\
    Forall (settable (length (gm_cells mesh))) kms /\
    forall c, (c < length (gm_cells mesh))%nat -> exists k, named g' arr c k /\
      ((exists km, last_such (fun km => hits (length (gm_cells mesh)) (snd (eff km)) c = true) kms km
                   /\ k = fst (eff km)) \/
       (Forall (fun km => hits (length (gm_cells mesh)) (snd (eff km)) c = false) kms /\
        base_name (labelled mesh) (ignore_groups o) (the_default o default) c k)).
Proof.
  intros Hn Ha. rewrite initialize_eq. destruct (base_array o mesh g) as [a0 g0] eqn:E0.
  destruct (base_array_spec _ _ _ _ _ Hn Ha E0) as (A1 & A2 & A3 & A4 & A5).
  destruct (apply_entries mesh (entries_of mesh group) a0 g0) as [[a1 g1]|] eqn:E1; [|discriminate].
  cbn [bind fst snd]. intros H%Ok_inj.
  destruct (apply_entries_spec _ _ _ _ _ _ A1 A3 E1) as (B1 & B2 & B3 & B4 & kms & B5 & B6 & B7).
  destruct (fill_default_spec _ _ _ _ _ B1 B3 H) as (C1 & C2 & C3 & C4).
  rewrite A4 in *. split; auto. split; [eapply extends_trans; [|exact C2]; eapply extends_trans; eauto|].
  split; [congruence|]. exists kms, g1. repeat split; auto; try apply B1.
  intros c Hc. rewrite <- A4 in Hc. specialize (B7 c). rewrite A4 in *. specialize (B7 Hc).
  rewrite <- B4 in Hc. specialize (C4 c Hc). rewrite B4 in Hc.
  destruct (A5 c Hc (the_default o default)) as (kb & Hb & Ek).
  destruct (entry_fold_spec (length (gm_cells mesh)) c kms (nm g0 a0 c) _ eq_refl)
    as [(km & Hlast & Hr)|[Hr Hf]]; rewrite Hr in B7; rewrite B7 in C4.
  - exists (fst (eff km)). split; [apply nm_named; auto|]. left; eauto.
  - exists kb. split; [|right; auto]. apply nm_named; auto. rewrite C4, <- Ek.
    destruct (nm g0 a0 c); auto.
Qed.

(* ---- selectors ---- *)
Lemma tilde_Some s s' : tilde s = Some s' <-> s = String "~"%char s'.
Proof.
  destruct s as [|ch s]; cbn [tilde]; [split; discriminate|].
  destruct (Ascii.eqb_spec ch "~"%char) as [->|N]; split; congruence.
Qed.

Lemma tilde_None s : tilde s = None <-> plain s.
Proof.
  unfold plain. destruct (tilde s) as [s'|] eqn:E.
  - apply tilde_Some in E. split; [discriminate|]. intros H. exfalso; eapply H; eauto.
  - split; auto. intros _ s' H. apply tilde_Some in H. congruence.
Qed.

Lemma hits_bool n b c : hits n (MBool b) c = true <-> nth_error b c = Some true.
Proof.
  cbn [hits]. revert c; induction b as [|x b IH]; intros [|c]; cbn; try apply IH; split; congruence.
Qed.

Lemma norm_index_spec n i c : (c < n)%nat ->
  norm_index n i = Some c <-> (i = Z.of_nat c \/ i = Z.of_nat c - Z.of_nat n).
Proof.
  intros Hc. unfold norm_index.
  destruct (Z.leb_spec 0 i), (Z.ltb_spec i (Z.of_nat n)); cbn [andb];
    try (split; [intros [= <-]; lia|intros; f_equal; lia]);
  destruct (Z.leb_spec (- Z.of_nat n) i), (Z.ltb_spec i 0); cbn [andb];
    try (split; [intros [= <-]; lia|intros; f_equal; lia]); split; try discriminate; lia.
Qed.

Lemma hits_int n ids c : (c < n)%nat -> hits n (MInt ids) c = true <-> addresses n (MInt ids) c.
Proof.
  intros Hc. cbn [hits addresses]. rewrite existsb_exists. split; intros (i & Hi & H); exists i; split; auto.
  - destruct (norm_index n i) as [p|] eqn:E; [|discriminate]. apply Nat.eqb_eq in H; subst p.
    apply norm_index_spec in E; auto.
  - apply (norm_index_spec n i c Hc) in H. rewrite H. apply Nat.eqb_refl.
Qed.

Lemma hits_addr n m c : (c < n)%nat -> hits n m c = true <-> addresses n m c.
Proof. intros Hc. destruct m as [b|ids]; [apply hits_bool|apply hits_int; auto]. Qed.

Lemma hits_not n b c : (c < n)%nat -> length b = n ->
  hits n (np_not (MBool b)) c = true <-> ~ hits n (MBool b) c = true.
Proof.
  intros Hc Hl. cbn [np_not]. rewrite !hits_bool, nth_error_map.
  destruct (nth_error b c) as [x|] eqn:E; [|apply nth_error_None in E; lia].
  cbn. destruct x; cbn; split; try congruence; intros H; congruence.
Qed.

Lemma set_ids_hits n ids b c : (c < n)%nat -> set_ids true ids (repeat false n) = Ok b ->
  hits n (MBool b) c = true <-> addresses n (MInt ids) c.
Proof.
  intros Hc H. apply set_ids_spec in H as (_ & _ & H). rewrite repeat_length in H.
  specialize (H c false). rewrite repeat_nth_error in H by auto. specialize (H eq_refl).
  rewrite hits_bool, H. rewrite <- hits_int by auto.
  destruct (hits n (MInt ids) c); split; congruence.
Qed.

(* an entry whose evaluated mask is what it denotes *)
Definition exact {A} (mesh : gmesh A) (g : dict) (e : string * selector A) : Prop :=
  forall km c, (c < length (gm_cells mesh))%nat ->
    evaluated mesh g e km -> settable (length (gm_cells mesh)) km ->
    (hits (length (gm_cells mesh)) (snd (eff km)) c = true <-> entry_selects mesh e c).

Lemma exact_bool {A} (mesh : gmesh A) g k sel :
  (forall m, selector_mask mesh g sel = Ok m -> exists b, m = MBool b) ->
  (forall b c, (c < length (gm_cells mesh))%nat -> selector_mask mesh g sel = Ok (MBool b) ->
     hits (length (gm_cells mesh)) (MBool b) c = true <-> selects mesh sel c) ->
  exact mesh g (k, sel).
Proof.
  intros Hb Hs [k' m] c Hc [E1 E2] Hset. cbn [fst snd] in *. subst k'.
  destruct (Hb m E2) as (b & ->). unfold settable in Hset. cbn [snd] in Hset.
  unfold eff. cbn [fst snd]. unfold entry_selects. cbn [fst snd].
  destruct (tilde k) as [k'|] eqn:Et; cbn [snd].
  - rewrite hits_not by auto. rewrite (Hs b c Hc E2). apply tilde_Some in Et. subst k. split.
    + intros H. split; auto. intros Hp. exfalso; eapply Hp; eauto.
    + intros [_ H]. eauto.
  - rewrite (Hs b c Hc E2). apply tilde_None in Et. split.
    + intros H. split; auto. intros k' ->. exfalso; eapply Et; eauto.
    + intros [H _]. auto.
Qed.

Lemma exact_arr {A} (mesh : gmesh A) g k m : exact mesh g (k, SelArr m).
Proof.
  apply exact_bool.
  - intros m'. destruct m as [b|ids]; cbn [selector_mask].
    + intros H%Ok_inj. eauto.
    + destruct (set_ids true ids _) as [b|] eqn:E; [|discriminate]. intros H%Ok_inj. eauto.
  - intros b c Hc. destruct m as [b'|ids]; cbn [selector_mask selects].
    + intros H%Ok_inj. injection H as ->. apply hits_addr; auto.
    + destruct (set_ids true ids _) as [b2|] eqn:E; [|discriminate]. intros H%Ok_inj.
      injection H as ->. apply set_ids_hits; auto.
Qed.

Lemma exact_call_bool {A} (mesh : gmesh A) g k f b : f mesh = MBool b -> exact mesh g (k, SelCall f).
Proof.
  intros Hf. apply exact_bool.
  - cbn [selector_mask]. rewrite Hf. intros m H%Ok_inj. eauto.
  - intros b' c Hc. cbn [selector_mask selects]. intros H%Ok_inj. rewrite H. apply hits_addr; auto.
Qed.

Lemma exact_call_plain {A} (mesh : gmesh A) g k f : plain k -> exact mesh g (k, SelCall f).
Proof.
  intros Hp [k' m] c Hc [E1 E2] Hset. cbn [fst snd] in *. subst k'.
  cbn [selector_mask] in E2. apply Ok_inj in E2. subst m.
  unfold eff, entry_selects. cbn [fst snd]. rewrite (proj2 (tilde_None k) Hp). cbn [snd].
  rewrite hits_addr by auto. split.
  - intros H; split; auto. intros k' ->. exfalso; eapply Hp; eauto.
  - intros [H _]. apply H; auto.
Qed.

Lemma exact_other {A} (mesh : gmesh A) g k : exact mesh g (k, SelOther).
Proof. intros km c _ [_ H]. discriminate. Qed.

(* string selectors are exact when the numbers of the table are those of the base mesh *)
Definition numbers_agree (cg : list Z) (labels g : dict) : Prop :=
  NoDup (map fst g) /\
  (forall z, In z cg -> exists k, In (k, z) labels) /\
  (forall k z, In (k, z) labels -> In (k, z) g) /\
  NoDup (map snd g).

Lemma string_mask_agree {A} (mesh : gmesh A) g cg labels s b c :
  gm_cg mesh = Some cg -> gm_labels mesh = Some labels -> numbers_agree cg labels g ->
  length cg = length (gm_cells mesh) -> (c < length (gm_cells mesh))%nat ->
  string_mask mesh g s = Ok b ->
  length b = length cg /\
  (nth_error b c = Some true <-> string_selects cg labels s c).
Proof.
  intros Hcg Hlab (N1 & N2 & N3 & N4) Hl Hc. unfold string_mask. rewrite Hcg.
  destruct (nth_error cg c) as [x|] eqn:Ex; [|apply nth_error_None in Ex; lia].
  assert (Hx : forall k z, dget k g = Some z -> (x = z <-> label_of cg labels c k)).
  { intros k z Hk. split.
    - intros ->. destruct (N2 z (nth_error_In _ _ Ex)) as (k' & Hk').
      assert (k' = k) as ->.
      { pose proof (In_inv_get z k' g N4 (N3 _ _ Hk')). apply dget_In in Hk.
        pose proof (In_inv_get z k g N4 Hk). congruence. }
      exists z; auto.
    - intros (v & Hv & Hi). rewrite Ex in Hv. injection Hv as <-.
      apply N3, (In_dget _ _ _ N1) in Hi. congruence. }
  unfold string_selects. destruct (tilde s) as [s'|] eqn:Et.
  - destruct (dget s' g) as [z|] eqn:E; [|discriminate]. intros H%Ok_inj. subst b.
    split; [apply map_length|]. rewrite nth_error_map, Ex. cbn [option_map].
    apply tilde_Some in Et. subst s. specialize (Hx _ _ E).
    destruct (Z.eqb_spec x z) as [e|e]; cbn [negb].
    + apply Hx in e. split; [discriminate|]. intros [_ H]. exfalso; exact (H _ eq_refl e).
    + split; auto. intros _. split.
      * intros Hp. exfalso; eapply Hp; eauto.
      * intros s'' [= <-]. tauto.
  - destruct (dget s g) as [z|] eqn:E; [|discriminate]. intros H%Ok_inj. subst b.
    split; [apply map_length|]. rewrite nth_error_map, Ex. cbn [option_map].
    apply tilde_None in Et. specialize (Hx _ _ E).
    destruct (Z.eqb_spec x z) as [e|e].
    + apply Hx in e. split; auto. intros _. split; auto. intros s' ->. exfalso; eapply Et; eauto.
    + split; [discriminate|]. intros [H _]. specialize (H Et). exfalso; apply e, Hx; auto.
Qed.

Lemma strings_mask_agree {A} (mesh : gmesh A) g cg labels c :
  gm_cg mesh = Some cg -> gm_labels mesh = Some labels -> numbers_agree cg labels g ->
  length cg = length (gm_cells mesh) -> (c < length (gm_cells mesh))%nat ->
  forall l acc b, length acc = length cg -> strings_mask mesh g l acc = Ok b ->
  (nth_error b c = Some true <->
     nth_error acc c = Some true \/ exists s, In s l /\ string_selects cg labels s c).
Proof.
  intros Hcg Hlab Hn Hl Hc. induction l as [|s l IH]; intros acc b Ha; cbn [strings_mask].
  - intros H%Ok_inj. subst. split; auto. intros [?|(? & [] & _)]; auto.
  - destruct (string_mask mesh g s) as [m|] eqn:E; [|discriminate]. cbn [bind]. intros H.
    destruct (string_mask_agree mesh g cg labels s m c Hcg Hlab Hn Hl Hc E) as [Hm Hs].
    apply IH in H; [|rewrite map2_length; lia]. rewrite H. rewrite map2_nth_error.
    assert (exists y, nth_error acc c = Some y) as (y & Ey).
    { destruct (nth_error acc c) eqn:En; eauto. apply nth_error_None in En. lia. }
    rewrite Ey in *. destruct (nth_error m c) as [w|] eqn:Ew; [|apply nth_error_None in Ew; lia].
    assert (Some (y || w)%bool = Some true <-> Some y = Some true \/ Some w = Some true) as ->.
    { destruct y, w; cbn; intuition congruence. }
    rewrite Hs. split.
    + intros [[?|?]|(s' & Hs' & ?)]; auto.
      * right; exists s; split; auto; left; auto.
      * right; exists s'; split; auto; right; auto.
    + intros [?|(s' & [<-|Hs'] & ?)]; auto. right; eauto.
Qed.

Lemma exact_strings {A} (mesh : gmesh A) g cg labels e :
  gm_cg mesh = Some cg -> gm_labels mesh = Some labels -> numbers_agree cg labels g ->
  length cg = length (gm_cells mesh) ->
  (exists s, snd e = SelStr s) \/ (exists l, snd e = SelStrs l) -> exact mesh g e.
Proof.
  intros Hcg Hlab Hn Hl. destruct e as [k sel]. cbn [snd]. intros [(s & ->)|(l & ->)]; apply exact_bool.
  - cbn [selector_mask]. intros m. destruct (string_mask mesh g s); [|discriminate]. intros H%Ok_inj; eauto.
  - intros b c Hc. cbn [selector_mask selects]. rewrite Hcg, Hlab.
    destruct (string_mask mesh g s) as [b'|] eqn:E; [|discriminate]. intros H%Ok_inj.
    injection H as ->. rewrite hits_bool.
    apply (string_mask_agree mesh g cg labels s b c Hcg Hlab Hn Hl Hc E).
  - cbn [selector_mask]. intros m. destruct (strings_mask mesh g l _); [|discriminate]. intros H%Ok_inj; eauto.
  - intros b c Hc. cbn [selector_mask selects]. rewrite Hcg, Hlab.
    destruct (strings_mask mesh g l _) as [b'|] eqn:E; [|discriminate]. intros H%Ok_inj.
    injection H as ->. rewrite hits_bool.
    rewrite (strings_mask_agree mesh g cg labels c Hcg Hlab Hn Hl Hc _ _ _ (eq_trans (repeat_length _ _) (eq_sym Hl)) E).
    split; auto. intros [H|H]; auto. rewrite repeat_nth_error in H by auto. discriminate.
Qed.

Lemma last_such_Forall2 {E F} (R : E -> F -> Prop) (P : E -> Prop) (Q : F -> Prop) l m :
  Forall2 R l m -> (forall x y, In x l -> In y m -> R x y -> (Q y <-> P x)) ->
  forall y, last_such Q m y -> exists x, last_such P l x /\ R x y.
Proof.
  intros H HPQ y (m1 & m2 & -> & Hy & Hm2).
  apply Forall2_app_inv_r in H as (l1 & l' & H1 & H2 & ->). inversion H2; subst.
  exists x. split; auto. exists l1, l. split; auto. split.
  - eapply HPQ; eauto; apply in_or_app; right; left; auto.
  - apply Forall_forall. intros x' Hx' Hp. rewrite Forall_forall in Hm2.
    apply In_nth_error in Hx' as (i & Hi).
    match goal with HF : Forall2 R l m2 |- _ =>
      destruct (Forall2_nth_error _ _ _ _ _ HF Hi) as (y' & Ey & Hn) end.
    apply (Hm2 y'); [eapply nth_error_In; eauto|].
    eapply HPQ; eauto; apply in_or_app; right; right; eapply nth_error_In; eauto.
Qed.

Lemma dict_law {A} o (mesh : gmesh A) g group default arr g' : numbered g -> aligned mesh ->
  initialize_group_array o mesh g group default = Ok (arr, g') ->
  (forall gb e, numbered gb -> extends (snd (base_array o mesh g)) gb ->
     In e (entries_of mesh group) -> exact mesh gb e) ->
  forall c, (c < length (gm_cells mesh))%nat ->
  exists k, named g' arr c k /\
    ((exists e, last_such (fun e => entry_selects mesh e c) (entries_of mesh group) e /\ key_name (fst e) k) \/
     (Forall (fun e => ~ entry_selects mesh e c) (entries_of mesh group) /\
      base_name (labelled mesh) (ignore_groups o) (the_default o default) c k)).
Proof.
  intros Hn Ha H Hex c Hc.
  destruct (initialize_spec _ _ _ _ _ _ _ Hn Ha H) as (_ & _ & _ & kms & gb & E1 & _ & E3 & E4 & E5 & E6).
  destruct (E6 c Hc) as (k & Hk & Hor). exists k. split; auto.
  assert (HPQ : forall e km, In e (entries_of mesh group) -> In km kms -> evaluated mesh gb e km ->
     (hits (length (gm_cells mesh)) (snd (eff km)) c = true <-> entry_selects mesh e c)).
  { intros e km He Hkm Hev. apply (Hex gb e E3 E1 He km c Hc Hev).
    rewrite Forall_forall in E5; auto. }
  destruct Hor as [(km & Hlast & ->)|[Hf Hb]].
  - left. destruct (last_such_Forall2 _ _ _ _ _ E4 HPQ _ Hlast) as (e & He & Hev).
    exists e. split; auto. destruct Hev as [Ek _]. rewrite <- Ek. unfold key_name, eff.
    destruct (tilde (fst km)) as [k'|] eqn:Et; cbn [fst].
    + left. apply tilde_Some; auto.
    + right. split; auto. apply tilde_None; auto.
  - right. split; auto. apply Forall_forall. intros e He Hs.
    apply In_nth_error in He as (i & Hi).
    destruct (Forall2_nth_error _ _ _ _ _ E4 Hi) as (km & Ekm & Hn').
    pose proof (nth_error_In _ _ Ekm) as Hkm.
    apply (HPQ e km (nth_error_In _ _ Hi) Hkm Hn') in Hs.
    rewrite Forall_forall in Hf. rewrite (Hf km Hkm) in Hs. discriminate.
Qed.

(* ---- the base groups of a numbered mesh keep their numbers ---- *)
Lemma NoDup_app_notin {E} (l m : list E) x : NoDup (l ++ x :: m) -> ~ In x l.
Proof. intros H Hx. apply NoDup_remove_2 in H. apply H, in_or_app; auto. Qed.

Lemma numbered_app_cons g k v ls : numbered (g ++ (k, v) :: ls) ->
  v = Z.of_nat (length g) /\ ~ In k (map fst g).
Proof.
  intros [H1 H2]. split.
  - assert (nth_error (map snd (g ++ (k, v) :: ls)) (length g) = Some v) as E.
    { rewrite map_app, nth_error_app2; rewrite map_length; auto. rewrite Nat.sub_diag; auto. }
    rewrite H2, nth_error_map, nth_error_seq in E. rewrite app_length in E. cbn [length] in E.
    destruct (Nat.ltb_spec (length g) (length g + S (length ls))); [|lia]. cbn in E. congruence.
  - rewrite map_app in H1. cbn [map fst] in H1. eapply NoDup_app_notin; eauto.
Qed.

Lemma apply_labels_numbered cg labels : forall arr g, numbered (g ++ labels) ->
  snd (apply_labels cg [] labels arr g) = g ++ labels.
Proof.
  induction labels as [|[k v] ls IH]; intros arr g Hn; cbn [apply_labels mem existsb].
  - rewrite app_nil_r; auto.
  - destruct (numbered_app_cons _ _ _ _ Hn) as [-> Hk]. apply dget_None in Hk.
    unfold get_group_number. rewrite Hk. rewrite IH; rewrite <- app_assoc; auto.
Qed.

(* ---- consequences ---- *)
Lemma groups_extend {A} o (mesh : gmesh A) g group default arr g' : numbered g -> aligned mesh ->
  initialize_group_array o mesh g group default = Ok (arr, g') -> numbered g' /\ extends g g'.
Proof. intros Hn Ha H. destruct (initialize_spec _ _ _ _ _ _ _ Hn Ha H) as (? & ? & _); auto. Qed.

Lemma groups_extend_size o size g default arr g' : numbered g ->
  initialize_group_array_size o size g default = (arr, g') ->
  numbered g' /\ extends g g' /\ length arr = size /\
  forall c, (c < size)%nat -> named g' arr c (the_default o default).
Proof.
  intros Hn. unfold initialize_group_array_size.
  destruct (Nat.eqb_spec size 0) as [->|N].
  - intros H; apply pair_equal_spec in H as [<- <-]. repeat split; auto using extends_refl; try apply Hn. lia.
  - fold (the_default o default). destruct (get_group_number _ g) as [n g1] eqn:E.
    destruct (get_group_number_spec _ _ _ _ Hn E) as (B1 & B2 & B3).
    intros H; apply pair_equal_spec in H as [<- <-].
    repeat split; auto using repeat_length; try apply B1.
    intros c Hc. exists n. split; auto. apply repeat_nth_error; auto.
Qed.

Lemma group_history A g g' : numbered g -> history A g g' -> numbered g' /\ extends g g'.
Proof.
  intros Hn H. induction H as [|g g1 g2 Hs H IH]; [split; auto using extends_refl|].
  assert (numbered g1 /\ extends g g1) as [B1 B2].
  { destruct Hs.
    - eapply groups_extend; eauto.
    - match goal with E : _ = (_, _) |- _ => apply groups_extend_size in E; tauto end.
    - match goal with E : _ = (_, _) |- _ => apply get_group_number_spec in E; tauto end. }
  destruct (IH B1) as [B3 B4]. split; auto. eapply extends_trans; eauto.
Qed.

Lemma every_cell_named {A} o (mesh : gmesh A) g group default arr g' : numbered g -> aligned mesh ->
  initialize_group_array o mesh g group default = Ok (arr, g') ->
  length arr = length (gm_cells mesh) /\
  forall c, (c < length arr)%nat -> exists k, named g' arr c k.
Proof.
  intros Hn Ha H. destruct (initialize_spec _ _ _ _ _ _ _ Hn Ha H) as (_ & _ & Hl & kms & gb & _ & _ & _ & _ & _ & E).
  split; auto. intros c Hc. rewrite Hl in Hc. destruct (E c Hc) as (k & Hk & _); eauto.
Qed.

Lemma base_groups_kept {A} o (mesh : gmesh A) g default : numbered g -> aligned mesh ->
  exists arr g', initialize_group_array o mesh g GNone default = Ok (arr, g') /\
  length arr = length (gm_cells mesh) /\
  forall c, (c < length (gm_cells mesh))%nat -> exists k, named g' arr c k /\
    base_name (labelled mesh) (ignore_groups o) (the_default o default) c k.
Proof.
  intros Hn Ha.
  destruct (initialize_group_array o mesh g GNone default) as [[arr g']|] eqn:E.
  2:{ rewrite initialize_eq in E. destruct (base_array o mesh g). discriminate. }
  exists arr, g'. split; auto. split; [eapply every_cell_named; eauto|]. intros c Hc.
  destruct (dict_law _ _ _ _ _ _ _ Hn Ha E) with (c := c) as (k & Hk & H); auto.
  - intros gb e _ _ [].
  - exists k. split; auto. destruct H as [(e & (l1 & l2 & H & _) & _)|[_ H]]; auto.
    destruct l1; discriminate.
Qed.

Lemma string_group_overrides {A} o (mesh : gmesh A) g s default : numbered g -> aligned mesh ->
  s <> ""%string -> plain s ->
  exists arr g', initialize_group_array o mesh g (GStr s) default = Ok (arr, g') /\
  length arr = length (gm_cells mesh) /\
  forall c, (c < length (gm_cells mesh))%nat -> named g' arr c s.
Proof.
  intros Hn Ha Hs Hp.
  assert (Hent : entries_of mesh (GStr s) = [(s, SelArr (MBool (repeat true (length (gm_cells mesh)))))]).
  { cbn [entries_of]. destruct (String.eqb_spec s ""); [contradiction|auto]. }
  destruct (initialize_group_array o mesh g (GStr s) default) as [[arr g']|] eqn:E.
  2:{ exfalso. rewrite initialize_eq in E. destruct (base_array o mesh g) as [a0 g0] eqn:Eb.
      apply base_array_spec in Eb as (_ & _ & _ & Hl & _); auto.
      rewrite Hent in E. cbn [apply_entries selector_mask bind] in E.
      rewrite (proj2 (tilde_None s) Hp) in E.
      destruct (get_group_number s g0). cbn [np_set] in E. rewrite repeat_length, Hl, Nat.eqb_refl in E.
      discriminate. }
  exists arr, g'. split; auto. split; [eapply every_cell_named; eauto|]. intros c Hc.
  destruct (dict_law _ _ _ _ _ _ _ Hn Ha E) with (c := c) as (k & Hk & H); auto.
  - rewrite Hent. intros gb e _ _ [<-|[]]. apply exact_arr.
  - rewrite Hent in H. destruct H as [(e & (l1 & l2 & H & _) & Hkn)|[H _]].
    + assert (e = (s, SelArr (MBool (repeat true (length (gm_cells mesh)))))) as ->.
      { destruct l1 as [|x l1]; [injection H; auto|]. injection H as _ H. destruct l1; discriminate. }
      cbn [fst] in Hkn. destruct Hkn as [->|[_ ->]]; auto. exfalso; eapply Hp; eauto.
    + exfalso. inversion H as [|? ? H' _]; subst. apply H'. split; cbn [fst snd selects addresses].
      * intros _. apply repeat_nth_error; auto.
      * intros k' ->. exfalso; eapply Hp; eauto.
Qed.

Lemma dict_groups {A} o (mesh : gmesh A) g d default arr g' : numbered g -> aligned mesh ->
  (forall e, In e d -> match snd e with
                       | SelArr _ => True
                       | SelCall f => plain (fst e) \/ exists b, f mesh = MBool b
                       | _ => False end) ->
  initialize_group_array o mesh g (GDict d) default = Ok (arr, g') ->
  forall c, (c < length (gm_cells mesh))%nat ->
  exists k, named g' arr c k /\
    ((exists e, last_such (fun e => entry_selects mesh e c) d e /\ key_name (fst e) k) \/
     (Forall (fun e => ~ entry_selects mesh e c) d /\
      base_name (labelled mesh) (ignore_groups o) (the_default o default) c k)).
Proof.
  intros Hn Ha Hd H. apply (dict_law _ _ _ _ _ _ _ Hn Ha H).
  cbn [entries_of]. intros gb [k sel] _ _ He. specialize (Hd _ He). cbn [fst snd] in Hd.
  destruct sel as [f|s|l|m|]; try contradiction.
  - destruct Hd as [Hp|(b & Hb)]; [apply exact_call_plain; auto|eapply exact_call_bool; eauto].
  - apply exact_arr.
Qed.

Lemma set_ids_defined {B} (x : B) ids a n : length a = n ->
  (forall i, In i ids -> - Z.of_nat n <= i < Z.of_nat n) -> exists a', set_ids x ids a = Ok a'.
Proof.
  revert a; induction ids as [|i ids IH]; intros a Hl Hi; cbn [set_ids]; eauto.
  assert (exists p, norm_index (length a) i = Some p) as (p & ->).
  { rewrite Hl. pose proof (Hi i (or_introl eq_refl)) as Hb. unfold norm_index.
    destruct (Z.leb_spec 0 i), (Z.ltb_spec i (Z.of_nat n)); cbn [andb]; eauto; try lia.
    destruct (Z.leb_spec (- Z.of_nat n) i), (Z.ltb_spec i 0); cbn [andb]; eauto; lia. }
  apply IH; [rewrite upd_length; auto|]. intros j Hj. apply Hi; right; auto.
Qed.

Lemma dict_groups_defined {A} o (mesh : gmesh A) g d default : numbered g -> aligned mesh ->
  (forall e, In e d -> exists m, snd e = SelArr m /\
     match m with
     | MBool b => length b = length (gm_cells mesh)
     | MInt ids => forall i, In i ids -> - Z.of_nat (length (gm_cells mesh)) <= i < Z.of_nat (length (gm_cells mesh))
     end) ->
  exists arr g', initialize_group_array o mesh g (GDict d) default = Ok (arr, g').
Proof.
  intros Hn Ha Hd. rewrite initialize_eq. destruct (base_array o mesh g) as [a0 g0] eqn:Eb.
  apply base_array_spec in Eb as (_ & _ & _ & Hl & _); auto. cbn [entries_of].
  assert (exists ag, apply_entries mesh d a0 g0 = Ok ag) as (ag & ->).
  { clear Hn. revert a0 g0 Hl. induction d as [|[k sel] d IH]; intros a0 g0 Hl; cbn [apply_entries]; eauto.
    destruct (Hd _ (or_introl eq_refl)) as (m & Em & Hm). cbn [snd] in Em. subst sel.
    assert (exists b, selector_mask mesh g0 (SelArr m) = Ok (MBool b) /\ length b = length (gm_cells mesh))
      as (b & -> & Hb).
    { destruct m as [b|ids]; cbn [selector_mask]; eauto.
      destruct (set_ids_defined true ids (repeat false (length (gm_cells mesh))) _ (repeat_length _ _) Hm)
        as (b & Eb). rewrite Eb. cbn [bind]. apply set_ids_spec in Eb as (Hlb & _).
      rewrite repeat_length in Hlb. eauto. }
    cbn [bind].
    assert (exists k1 b1, match tilde k with Some k' => (k', np_not (MBool b)) | None => (k, MBool b) end
                         = (k1, MBool b1) /\ length b1 = length (gm_cells mesh)) as (k1 & b1 & -> & Hb1).
    { destruct (tilde k); cbn [np_not]; eexists _, _; split; eauto. rewrite map_length; auto. }
    destruct (get_group_number k1 g0) as [n g1]. cbn [np_set]. rewrite Hb1, Hl, Nat.eqb_refl. cbn [bind].
    apply IH; [|rewrite mask_set_length; auto]. intros e He. apply Hd; right; auto. }
  cbn [bind]. destruct (fill_default _ _ _); eauto.
Qed.

Lemma string_selectors {A} o (mesh : gmesh A) cg labels d default arr g' : aligned mesh ->
  ignore_groups o = [] -> gm_cg mesh = Some cg -> gm_labels mesh = Some labels -> numbered labels ->
  (forall z, In z cg -> exists k, In (k, z) labels) ->
  (forall e, In e d -> match snd e with
                       | SelCall f => plain (fst e) \/ exists b, f mesh = MBool b
                       | _ => True end) ->
  initialize_group_array o mesh [] (GDict d) default = Ok (arr, g') ->
  forall c, (c < length (gm_cells mesh))%nat ->
  exists k, named g' arr c k /\
    ((exists e, last_such (fun e => entry_selects mesh e c) d e /\ key_name (fst e) k) \/
     (Forall (fun e => ~ entry_selects mesh e c) d /\
      base_name (labelled mesh) (ignore_groups o) (the_default o default) c k)).
Proof.
  intros Ha Ho Hcg Hlab Hn Hall Hd H. apply (dict_law _ _ _ _ _ _ _ numbered_nil Ha H).
  cbn [entries_of]. intros gb [k sel] Hgb Hext He. specialize (Hd _ He). cbn [fst snd] in Hd.
  unfold base_array in Hext. rewrite Hcg, Hlab, Ho, apply_labels_numbered in Hext by auto.
  cbn [app] in Hext.
  unfold aligned in Ha. rewrite Hcg in Ha.
  assert (Hag : numbers_agree cg labels gb).
  { repeat split; auto.
    - apply Hgb.
    - intros k' z Hk. eapply extends_In; eauto.
    - apply numbered_values; auto. }
  destruct sel as [f|s|l|m|].
  - destruct Hd as [Hp|(b & Hb)]; [apply exact_call_plain; auto|eapply exact_call_bool; eauto].
  - eapply exact_strings; eauto. left; cbn [snd]; eauto.
  - eapply exact_strings; eauto. right; cbn [snd]; eauto.
  - apply exact_arr.
  - apply exact_other.
Qed.
