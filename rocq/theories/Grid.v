(* Structured grids: Fortran-ordered 3-D arrays. *)
From Verif Require Export Prelude.

(* numpy ravel(order="F") of an array of shape (nx, ny, nz): the first index is fastest.
   This is also the order of the points of pv.StructuredGrid(X, Y, Z). *)
Definition ravelF {A} (nx ny nz : nat) (f : nat -> nat -> nat -> A) : list A :=
  flat_map (fun k => flat_map (fun j => map (fun i => f i j k) (seq 0 nx)) (seq 0 ny)) (seq 0 nz).

Definition shape3 := (nat * nat * nat)%type.

(* flat index of (i,j,k) in Fortran order *)
Definition fidx (s : shape3) (c : shape3) : nat :=
  let '(nx, ny, _) := s in let '(i, j, k) := c in i + nx * (j + ny * k).

Definition in_shape (s c : shape3) : Prop :=
  let '(nx, ny, nz) := s in let '(i, j, k) := c in i < nx /\ j < ny /\ k < nz.

Definition size3 (s : shape3) : nat := let '(nx, ny, nz) := s in nx * ny * nz.

(* component of a triple *)
Definition comp (ax : nat) (c : shape3) : nat :=
  let '(i, j, k) := c in match ax with 0 => i | 1 => j | _ => k end.

(* the triple with the component [ax] replaced *)
Definition setc (ax v : nat) (c : shape3) : shape3 :=
  let '(i, j, k) := c in
  match ax with 0 => (v, j, k) | 1 => (i, v, k) | _ => (i, j, v) end.

Lemma flat_map_seq_length {A} (g : nat -> list A) s n L :
  (forall k, s <= k < s + n -> length (g k) = L) -> length (flat_map g (seq s n)) = n * L.
Proof.
  revert s; induction n as [|n IH]; intros s H; simpl; auto.
  rewrite app_length, H by lia. rewrite IH; auto. intros; apply H; lia.
Qed.

Lemma flat_map_seq_nth {A} (g : nat -> list A) s n L k r :
  (forall k, s <= k < s + n -> length (g k) = L) -> k < n -> r < L ->
  nth_error (flat_map g (seq s n)) (k * L + r) = nth_error (g (s + k)) r.
Proof.
  revert s k; induction n as [|n IH]; intros s k H Hk Hr; [lia|]; simpl.
  destruct k as [|k].
  - rewrite Nat.add_0_r. apply nth_error_app1. simpl. rewrite H by lia; auto.
  - rewrite nth_error_app2 by (rewrite H by lia; simpl; lia).
    rewrite H by lia. replace (S k * L + r - L) with (k * L + r) by (simpl; lia).
    rewrite IH; try lia. { f_equal; f_equal; lia. } { intros; apply H; lia. }
Qed.

Lemma row_length {A} (f : nat -> A) n : length (map f (seq 0 n)) = n.
Proof. rewrite map_length, seq_length; auto. Qed.

Lemma ravelF_length {A} nx ny nz (f : nat -> nat -> nat -> A) :
  length (ravelF nx ny nz f) = nx * ny * nz.
Proof.
  unfold ravelF.
  rewrite (flat_map_seq_length _ _ _ (ny * nx)); [lia|].
  intros; apply flat_map_seq_length; intros; apply row_length.
Qed.

Lemma ravelF_nth {A} nx ny nz (f : nat -> nat -> nat -> A) i j k :
  i < nx -> j < ny -> k < nz ->
  nth_error (ravelF nx ny nz f) (i + nx * (j + ny * k)) = Some (f i j k).
Proof.
  intros Hi Hj Hk; unfold ravelF.
  replace (i + nx * (j + ny * k)) with (k * (ny * nx) + (j * nx + i)) by nia.
  rewrite flat_map_seq_nth with (L := ny * nx); try nia.
  - rewrite flat_map_seq_nth with (L := nx); auto.
    + rewrite nth_error_map, nth_error_seq. simpl.
      destruct (Nat.ltb_spec i nx); [reflexivity|lia].
    + intros; apply row_length.
  - intros; apply flat_map_seq_length; intros; apply row_length.
Qed.

Lemma fidx_lt s c : in_shape s c -> fidx s c < size3 s.
Proof.
  destruct s as [[nx ny] nz], c as [[i j] k]; simpl; intros (Hi & Hj & Hk).
  assert (j + ny * k < ny * nz) by nia. nia.
Qed.

Lemma fidx_surj s p : p < size3 s -> exists c, in_shape s c /\ fidx s c = p.
Proof.
  destruct s as [[nx ny] nz]; simpl; intros H.
  assert (nx <> 0 /\ ny <> 0) as [Hx Hy] by (split; intros ->; simpl in *; lia).
  exists (p mod nx, (p / nx) mod ny, p / nx / ny); simpl.
  pose proof (Nat.div_mod p nx Hx). pose proof (Nat.div_mod (p / nx) ny Hy).
  pose proof (Nat.mod_upper_bound p nx Hx). pose proof (Nat.mod_upper_bound (p / nx) ny Hy).
  repeat split; auto; [|lia].
  apply Nat.div_lt_upper_bound; auto. apply Nat.div_lt_upper_bound; auto. lia.
Qed.

Lemma fidx_inj s c d : in_shape s c -> in_shape s d -> fidx s c = fidx s d -> c = d.
Proof.
  destruct s as [[nx ny] nz], c as [[i j] k], d as [[i' j'] k']; simpl.
  intros (Hi & Hj & Hk) (Hi' & Hj' & Hk') H.
  assert (i = i' /\ j + ny * k = j' + ny * k') as [-> H1].
  { rewrite (Nat.add_comm i), (Nat.add_comm i') in H.
    apply Nat.div_mod_unique in H; tauto. }
  rewrite (Nat.add_comm j), (Nat.add_comm j') in H1.
  apply Nat.div_mod_unique in H1; auto. destruct H1 as [-> ->]; auto.
Qed.

Lemma ravelF_fidx {A} nx ny nz (f : nat -> nat -> nat -> A) i j k :
  in_shape (nx, ny, nz) (i, j, k) ->
  nth_error (ravelF nx ny nz f) (fidx (nx, ny, nz) (i, j, k)) = Some (f i j k).
Proof. intros (Hi & Hj & Hk); apply ravelF_nth; auto. Qed.

Lemma flat_map_const_length {A B} (g : A -> list B) l L :
  (forall y, In y l -> length (g y) = L) -> length (flat_map g l) = length l * L.
Proof.
  induction l as [|x l IH]; simpl; intros H; auto.
  rewrite app_length, (H x) by auto. rewrite IH; auto.
Qed.

Lemma flat_map_const_nth {A B} (g : A -> list B) l L k r x :
  (forall y, In y l -> length (g y) = L) -> nth_error l k = Some x -> r < L ->
  nth_error (flat_map g l) (k * L + r) = nth_error (g x) r.
Proof.
  revert k; induction l as [|y l IH]; intros k H Hx Hr; [destruct k; discriminate|]; simpl.
  destruct k as [|k]; simpl in Hx.
  - injection Hx as ->. apply nth_error_app1. rewrite H by (left; auto); auto.
  - rewrite nth_error_app2 by (rewrite H by (left; auto); simpl; lia).
    rewrite H by (left; auto). replace (S k * L + r - L) with (k * L + r) by (simpl; lia).
    apply IH; auto. intros; apply H; right; auto.
Qed.
