From Coq Require Import Reals Lra Lia Sorted.
From Verif Require Import Prelude RealAux Perc_model Perc_proof Grid Surface_model Surface_spec Surface_proof Volume_model
  Groups_model Lines_model Lines_spec Lines1_proof Voronoi_model Objects_model Objects_spec Objects1_proof Objects5_proof
  Seeds_model Seeds_spec Seeds1_proof.
Open Scope R_scope.

Notation z2 := ((0, 0) : R * R).
Local Notation at_ l k := (nth k l z2).

Lemma vec_eq (p q : vec) : fst p = fst q -> snd p = snd q -> p = q.
Proof. destruct p, q; cbn; congruence. Qed.

(* invariant of 270-291 *)
Definition inv (ps fs bs : list vec) : Prop :=
  (2 <= length ps)%nat /\ length fs = length ps /\ length bs = length ps /\
  (forall k, (S k < length ps)%nat -> at_ fs k = sub2 (at_ ps (S k)) (at_ ps k)) /\
  at_ fs (length ps - 1) = at_ fs (length ps - 2) /\
  (forall k, (S k < length ps)%nat -> at_ bs (S k) = sub2 (at_ ps k) (at_ ps (S k))) /\
  at_ bs 0 = at_ bs 1.

Lemma diff_length l : length (diff l) = (length l - 1)%nat.
Proof. induction l as [|p [|q l] IH]; [reflexivity|reflexivity|]. cbn [diff length] in *. rewrite IH. lia. Qed.

Lemma diff_at l k : (S k < length l)%nat -> at_ (diff l) k = sub2 (at_ l (S k)) (at_ l k).
Proof.
  revert k; induction l as [|p [|q l] IH]; intros k H; cbn [length] in H; try lia.
  destruct k as [|k]; [reflexivity|]. change (at_ (diff (p :: q :: l)) (S k)) with (at_ (diff (q :: l)) k).
  rewrite IH by (cbn; lia). reflexivity.
Qed.

Lemma back_at l k : (S k < length l)%nat -> at_ (rev (diff (rev l))) k = sub2 (at_ l k) (at_ l (S k)).
Proof.
  intros H. rewrite rev_nth by (rewrite diff_length, rev_length; lia).
  rewrite diff_length, rev_length. rewrite diff_at by (rewrite rev_length; lia).
  rewrite !rev_nth by lia. f_equal; f_equal; lia.
Qed.

Lemma last_rev (l : list vec) x l' : rev l = x :: l' -> at_ l (length l - 1) = x.
Proof.
  intros H. assert (l = rev (x :: l')) by (rewrite <- H, rev_involutive; reflexivity). subst l.
  rewrite rev_length. cbn [rev length]. rewrite app_nth2; rewrite rev_length; [|lia].
  replace (S (length l') - 1 - length l')%nat with 0%nat by lia. reflexivity.
Qed.

Lemma inv_start ps fl fr b0 br : (2 <= length ps)%nat -> rev (diff ps) = fl :: fr -> rev (diff (rev ps)) = b0 :: br ->
  inv ps (diff ps ++ [fl]) (b0 :: b0 :: br).
Proof.
  intros L Hf Hb. unfold inv. split; [exact L|].
  assert (Lb : length (b0 :: br) = (length ps - 1)%nat) by (rewrite <- Hb, rev_length, diff_length, rev_length; reflexivity).
  cbn [length] in Lb.
  split; [rewrite app_length, diff_length; cbn; lia|]. split; [cbn [length]; lia|].
  split; [|split; [|split]].
  - intros k Hk. rewrite app_nth1 by (rewrite diff_length; lia). apply diff_at; lia.
  - rewrite app_nth2; rewrite diff_length; [|lia]. rewrite Nat.sub_diag. cbn [nth].
    rewrite app_nth1 by (rewrite diff_length; lia).
    pose proof (last_rev _ _ _ Hf) as E. rewrite diff_length in E. replace (length ps - 1 - 1)%nat with (length ps - 2)%nat in E by lia. congruence.
  - intros k Hk. change (at_ (b0 :: b0 :: br) (S k)) with (at_ (b0 :: br) k). rewrite <- Hb. apply back_at; lia.
  - reflexivity.
Qed.

Lemma inv_extend_start ps fs bs : inv ps fs bs ->
  exists ps' fs' bs', extend_start (ps, fs, bs) = Ok (ps', fs', bs') /\ inv ps' fs' bs' /\
    length ps' = S (length ps) /\ (forall k, at_ ps' (S k) = at_ ps k) /\ middle_of (at_ ps' 0) (at_ ps' 1) (at_ ps' 2).
Proof.
  intros (L & Lf & Lb & F & Fl & B & B0).
  destruct ps as [|p [|q ps]]; cbn [length] in *; try lia.
  destruct fs as [|f fs]; cbn [length] in *; try lia. destruct bs as [|b bs]; cbn [length] in *; try lia.
  cbn [extend_start]. do 3 eexists. split; [reflexivity|].
  assert (Ef : f = sub2 q p) by (apply (F 0%nat); lia).
  assert (Eb : b = sub2 p q) by (change b with (at_ (b :: bs) 0); rewrite B0; apply (B 0%nat); lia).
  split; [|split; [cbn; lia|split; [reflexivity|]]].
  - unfold inv. cbn [length]. do 3 (split; [lia|]). split; [|split; [|split]].
    + intros [|k] Hk.
      * cbn [nth]. apply vec_eq; unfold sub2; cbn; ring.
      * change (at_ (f :: f :: fs) (S k)) with (at_ (f :: fs) k).
        change (at_ (sub2 p f :: p :: q :: ps) (S (S k))) with (at_ (p :: q :: ps) (S k)).
        change (at_ (sub2 p f :: p :: q :: ps) (S k)) with (at_ (p :: q :: ps) k). apply F. lia.
    + replace (S (S (S (length ps))) - 1)%nat with (S (S (length ps))) by lia.
      replace (S (S (S (length ps))) - 2)%nat with (S (length ps)) by lia.
      replace (S (S (length ps)) - 1)%nat with (S (length ps)) in Fl by lia.
      replace (S (S (length ps)) - 2)%nat with (length ps) in Fl by lia. exact Fl.
    + intros [|k] Hk.
      * cbn [nth]. rewrite Eb, Ef. apply vec_eq; unfold sub2; cbn; ring.
      * change (at_ (b :: b :: bs) (S (S k))) with (at_ (b :: bs) (S k)).
        change (at_ (sub2 p f :: p :: q :: ps) (S (S k))) with (at_ (p :: q :: ps) (S k)).
        change (at_ (sub2 p f :: p :: q :: ps) (S k)) with (at_ (p :: q :: ps) k). apply B. lia.
    + reflexivity.
  - cbn [nth]. rewrite Ef. unfold middle_of, sub2. cbn. split; ring.
Qed.

Lemma inv_extend_end ps fs bs : inv ps fs bs ->
  exists ps' fs' bs', extend_end (ps, fs, bs) = Ok (ps', fs', bs') /\ inv ps' fs' bs' /\
    length ps' = S (length ps) /\ (forall k, (k < length ps)%nat -> at_ ps' k = at_ ps k) /\
    middle_of (at_ ps' (length ps - 2)) (at_ ps' (length ps - 1)) (at_ ps' (length ps)).
Proof.
  intros (L & Lf & Lb & F & Fl & B & B0).
  cbn [extend_end].
  destruct (rev ps) as [|p pr] eqn:Hp; [apply (f_equal (@length _)) in Hp; rewrite rev_length in Hp; cbn in Hp; lia|].
  destruct (rev fs) as [|f fr] eqn:Hf; [apply (f_equal (@length _)) in Hf; rewrite rev_length in Hf; cbn in Hf; lia|].
  destruct (rev bs) as [|b br] eqn:Hb; [apply (f_equal (@length _)) in Hb; rewrite rev_length in Hb; cbn in Hb; lia|].
  apply last_rev in Hp. apply last_rev in Hf. apply last_rev in Hb. rewrite Lf in Hf. rewrite Lb in Hb.
  set (n := length ps) in *.
  assert (N1 : exists m, n = S (S m)) by (exists (n - 2)%nat; lia). destruct N1 as (m & Hn).
  assert (Ef : f = sub2 p (at_ ps m)).
  { rewrite <- Hf, Fl. replace (n - 2)%nat with m by lia. rewrite (F m) by lia. rewrite <- Hp. do 2 f_equal. lia. }
  assert (Eb : b = sub2 (at_ ps m) p).
  { rewrite <- Hb. replace (n - 1)%nat with (S m) by lia. rewrite (B m) by lia. rewrite <- Hp. do 2 f_equal. lia. }
  do 3 eexists. split; [reflexivity|].
  assert (A1 : forall k, (k < n)%nat -> at_ (ps ++ [sub2 p b]) k = at_ ps k) by (intros k Hk; apply app_nth1; fold n; lia).
  assert (A2 : at_ (ps ++ [sub2 p b]) n = sub2 p b) by (rewrite app_nth2; fold n; [rewrite Nat.sub_diag; reflexivity|lia]).
  assert (A3 : forall k, (k < n)%nat -> at_ (fs ++ [f]) k = at_ fs k) by (intros k Hk; apply app_nth1; lia).
  assert (A4 : at_ (fs ++ [f]) n = f) by (rewrite app_nth2; rewrite Lf; [rewrite Nat.sub_diag; reflexivity|lia]).
  assert (A5 : forall k, (k < n)%nat -> at_ (bs ++ [b]) k = at_ bs k) by (intros k Hk; apply app_nth1; lia).
  assert (A6 : at_ (bs ++ [b]) n = b) by (rewrite app_nth2; rewrite Lb; [rewrite Nat.sub_diag; reflexivity|lia]).
  split; [|split; [rewrite app_length; fold n; cbn; lia|split; [exact A1|]]].
  - unfold inv. rewrite !app_length. cbn [length]. fold n. rewrite Lf, Lb. do 3 (split; [lia|]). split; [|split; [|split]].
    + intros k Hk. destruct (Nat.eq_dec (S k) n) as [E|E].
      * rewrite A3 by lia. rewrite E, A2, A1 by lia.
        replace k with (n - 1)%nat by lia. rewrite Hf, Hp, Ef, Eb. apply vec_eq; unfold sub2; cbn; ring.
      * rewrite A3, !A1 by lia. apply F. lia.
    + replace (n + 1 - 1)%nat with n by lia. replace (n + 1 - 2)%nat with (n - 1)%nat by lia. rewrite A4, A3 by lia. congruence.
    + intros k Hk. destruct (Nat.eq_dec (S k) n) as [E|E].
      * rewrite E, A6, A2, A1 by lia. replace k with (n - 1)%nat by lia. rewrite Hp.
        rewrite Eb. apply vec_eq; unfold sub2; cbn; ring.
      * rewrite A5, !A1 by lia. apply B. lia.
    + rewrite !A5 by lia. exact B0.
  - rewrite A2, !A1 by lia. rewrite Hp. replace (n - 2)%nat with m by lia. rewrite Eb. unfold middle_of, sub2. cbn. split; ring.
Qed.

Lemma starts cs ps fs bs : inv ps fs bs ->
  exists ps' fs' bs', times_do cs extend_start (ps, fs, bs) = Ok (ps', fs', bs') /\ inv ps' fs' bs' /\
    length ps' = (cs + length ps)%nat /\ (forall k, at_ ps' (cs + k) = at_ ps k) /\
    (forall k, (k < cs)%nat -> middle_of (at_ ps' k) (at_ ps' (S k)) (at_ ps' (S (S k)))).
Proof.
  revert ps fs bs; induction cs as [|cs IH]; intros ps fs bs H; cbn [times_do].
  - do 3 eexists. split; [reflexivity|]. split; [exact H|]. split; [reflexivity|]. split; [reflexivity|]. intros; lia.
  - destruct (inv_extend_start ps fs bs H) as (p1 & f1 & b1 & -> & I1 & L1 & A1 & M1). cbn [bind].
    destruct (IH _ _ _ I1) as (p2 & f2 & b2 & E & I2 & L2 & A2 & M2). exists p2, f2, b2. split; [exact E|]. split; [exact I2|].
    split; [lia|]. split.
    + intros k. replace (S cs + k)%nat with (cs + S k)%nat by lia. rewrite A2. apply A1.
    + intros k Hk. destruct (Nat.eq_dec k cs) as [->|Hne]; [|apply M2; lia].
      pose proof (A2 0%nat) as X0. pose proof (A2 1%nat) as X1. pose proof (A2 2%nat) as X2.
      replace (cs + 0)%nat with cs in X0 by lia. replace (cs + 1)%nat with (S cs) in X1 by lia.
      replace (cs + 2)%nat with (S (S cs)) in X2 by lia. rewrite X0, X1, X2. exact M1.
Qed.

Lemma ends ce ps fs bs : inv ps fs bs ->
  exists ps' fs' bs', times_do ce extend_end (ps, fs, bs) = Ok (ps', fs', bs') /\ inv ps' fs' bs' /\
    length ps' = (length ps + ce)%nat /\ (forall k, (k < length ps)%nat -> at_ ps' k = at_ ps k) /\
    (forall k, (length ps <= S (S k))%nat -> (S (S k) < length ps')%nat -> middle_of (at_ ps' k) (at_ ps' (S k)) (at_ ps' (S (S k)))).
Proof.
  revert ps fs bs; induction ce as [|ce IH]; intros ps fs bs H; cbn [times_do].
  - do 3 eexists. split; [reflexivity|]. split; [exact H|]. split; [lia|]. split; [reflexivity|]. intros; lia.
  - destruct (inv_extend_end ps fs bs H) as (p1 & f1 & b1 & -> & I1 & L1 & A1 & M1). cbn [bind].
    destruct (IH _ _ _ I1) as (p2 & f2 & b2 & E & I2 & L2 & A2 & M2). exists p2, f2, b2. split; [exact E|]. split; [exact I2|].
    split; [lia|]. split.
    + intros k Hk. rewrite A2 by lia. apply A1; lia.
    + intros k Hk Hk'. destruct (Nat.eq_dec (S (S k)) (length ps)) as [Hn|Hn]; [|apply M2; lia].
      replace (length ps - 2)%nat with k in M1 by lia. replace (length ps - 1)%nat with (S k) in M1 by lia. rewrite <- Hn in M1.
      rewrite !A2 by lia. exact M1.
Qed.

(* the normals *)
Lemma norm2_sq p : norm2 p * norm2 p = fst p * fst p + snd p * snd p.
Proof. unfold norm2. apply sqrt_sqrt. nra. Qed.

Lemma norm2_pos p : p <> (0, 0) -> 0 < norm2 p.
Proof.
  intros H. unfold norm2. apply sqrt_lt_R0. destruct p as (x, y). cbn.
  destruct (Req_dec x 0) as [->|Hx]; [|nra]. destruct (Req_dec y 0) as [->|Hy]; [congruence|nra].
Qed.

Lemma normal_left f b d c a : 0 < c -> d = sub2 b a -> a <> b -> forall g,
  fst f - fst g = 2 * c * fst d -> snd f - snd g = 2 * c * snd d -> left_normal a b (normal f g).
Proof.
  intros Hc Hd Hab g H1 H2. unfold normal.
  set (n := scale2 (/ 2) (plus2 (- snd f, fst f) (snd g, - fst g))).
  assert (En : n = (- c * snd d, c * fst d)).
  { unfold n, scale2, plus2. cbn. apply vec_eq; cbn; lra. }
  assert (Hd0 : d <> (0, 0)).
  { intros E. apply Hab. rewrite E in Hd. unfold sub2 in Hd. injection Hd as X Y. apply vec_eq; lra. }
  assert (Hn0 : n <> (0, 0)).
  { rewrite En. intros E. injection E as X Y. apply Hd0. apply vec_eq; cbn; nra. }
  clearbody n. pose proof (norm2_pos n Hn0) as Hp. pose proof (norm2_sq n) as Hs.
  unfold left_normal, scale2. cbn [fst snd].
  assert (Ed : fst d = fst b - fst a /\ snd d = snd b - snd a) by (rewrite Hd; split; reflexivity).
  destruct Ed as (Ed1 & Ed2). rewrite <- Ed1, <- Ed2.
  assert (Dp : 0 < fst d * fst d + snd d * snd d).
  { destruct d as (dx, dy). cbn. destruct (Req_dec dx 0) as [->|Hx]; [|nra]. destruct (Req_dec dy 0) as [->|Hy]; [congruence|nra]. }
  split; [|split].
  - replace (/ norm2 n * fst n * (/ norm2 n * fst n) + / norm2 n * snd n * (/ norm2 n * snd n))
      with ((fst n * fst n + snd n * snd n) / (norm2 n * norm2 n)) by (field; lra).
    rewrite Hs. field. rewrite <- Hs. nra.
  - rewrite En at 2 4. cbn [fst snd]. ring.
  - rewrite En at 2 4. cbn [fst snd]. 
    replace (fst d * (/ norm2 n * (c * fst d)) - snd d * (/ norm2 n * (- c * snd d)))
      with (/ norm2 n * (c * (fst d * fst d + snd d * snd d))) by ring.
    apply Rmult_lt_0_compat; [apply Rinv_0_lt_compat; exact Hp|]. apply Rmult_lt_0_compat; assumption.
Qed.

Lemma nth_error_at (l : list vec) k x : nth_error l k = Some x -> at_ l k = x.
Proof. apply nth_of. Qed.
Lemma at_nth_error (l : list vec) k : (k < length l)%nat -> nth_error l k = Some (at_ l k).
Proof. intros H. apply nth_error_nth'. exact H. Qed.

Lemma inv_normals ps fs bs k a b : inv ps fs bs -> (k < length ps)%nat -> around ps k a b -> a <> b ->
  left_normal a b (normal (at_ fs k) (at_ bs k)).
Proof.
  intros (L & Lf & Lb & F & Fl & B & B0) Hk (Ha & Hb) Hab.
  apply nth_error_at in Ha.
  destruct k as [|k].
  - cbn [Nat.sub] in Ha. destruct Hb as [Hb|(Hb & _)]; [|apply nth_error_None in Hb; lia]. apply nth_error_at in Hb.
    apply (normal_left (at_ fs 0) b (sub2 b a) 1 a); auto; [lra| |]; rewrite B0, (F 0%nat), (B 0%nat) by lia; rewrite Ha, Hb; unfold sub2; cbn; ring.
  - replace (S k - 1)%nat with k in Ha by lia.
    destruct Hb as [Hb|(Hn & Hb)].
    + assert (Hk2 : (S (S k) < length ps)%nat) by (apply nth_error_Some; congruence). apply nth_error_at in Hb.
      apply (normal_left (at_ fs (S k)) b (sub2 b a) (/ 2) a); auto; [lra| |]; rewrite (F (S k)), (B k) by lia; rewrite Ha, Hb; unfold sub2; cbn; field.
    + apply nth_error_None in Hn. apply nth_error_at in Hb.
      assert (Ek : S k = (length ps - 1)%nat) by lia.
      assert (Ef : at_ fs (S k) = sub2 b a).
      { rewrite Ek, Fl. replace (length ps - 2)%nat with k by lia. rewrite (F k) by lia. congruence. }
      apply (normal_left (at_ fs (S k)) b (sub2 b a) 1 a); auto; [lra| |]; rewrite Ef, (B k) by lia; rewrite Ha, Hb; unfold sub2; cbn; ring.
Qed.

Lemma strip_ok cs ce Q : (2 <= length Q)%nat ->
  exists E N, strip cs ce Q = Ok (combine E N) /\ length N = length E /\ prolonged cs ce Q E /\
    (forall k a b, (k < length E)%nat -> around E k a b -> a <> b -> left_normal a b (at_ N k)).
Proof.
  intros L. unfold strip.
  destruct (rev (diff Q)) as [|fl fr] eqn:Hf; [apply (f_equal (@length _)) in Hf; rewrite rev_length, diff_length in Hf; cbn in Hf; lia|].
  destruct (rev (diff (rev Q))) as [|b0 br] eqn:Hb; [apply (f_equal (@length _)) in Hb; rewrite rev_length, diff_length, rev_length in Hb; cbn in Hb; lia|].
  pose proof (inv_start Q fl fr b0 br L Hf Hb) as I0.
  destruct (starts cs _ _ _ I0) as (p1 & f1 & b1 & -> & I1 & L1 & A1 & M1). cbn [bind].
  destruct (ends ce _ _ _ I1) as (p2 & f2 & b2 & -> & I2 & L2 & A2 & M2). cbn [bind].
  exists p2, (map2 normal f2 b2). split; [reflexivity|].
  destruct I2 as (X1 & X2 & X3 & X4).
  split; [rewrite map2_length; lia|]. split.
  - unfold prolonged. split; [lia|]. split; [|split].
    + intros k q Hq. assert (Hk : (k < length Q)%nat) by (apply nth_error_Some; congruence).
      rewrite at_nth_error by lia. rewrite A2, A1 by lia. f_equal. apply nth_error_at. exact Hq.
    + intros k a b c Hk Ha Hb' Hc. apply nth_error_at in Ha. apply nth_error_at in Hb'.
      assert (S (S k) < length p2)%nat by (apply nth_error_Some; congruence). apply nth_error_at in Hc.
      rewrite A2 in Ha, Hb', Hc by lia. rewrite <- Ha, <- Hb', <- Hc. apply M1. lia.
    + intros k a b c Hk Ha Hb' Hc. assert (S (S k) < length p2)%nat by (apply nth_error_Some; congruence).
      apply nth_error_at in Ha. apply nth_error_at in Hb'. apply nth_error_at in Hc.
      rewrite <- Ha, <- Hb', <- Hc. apply M2; lia.
  - intros k a b Hk Har Hab.
    assert (E : at_ (map2 normal f2 b2) k = normal (at_ f2 k) (at_ b2 k)).
    { apply nth_error_at. rewrite map2_nth_error. rewrite !at_nth_error by lia. reflexivity. }
    rewrite E. apply (inv_normals p2 f2 b2); auto. split; auto.
Qed.

Lemma strip_bad cs ce Q : (length Q < 2)%nat -> strip cs ce Q = Err IndexError.
Proof. destruct Q as [|p [|q Q]]; cbn; intros; try lia; reflexivity. Qed.
