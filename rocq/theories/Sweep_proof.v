From Verif Require Import RealAux Perc_model Perc_spec Perc_proof Surface_model Surface_spec Surface_proof
  Volume_model Volume_spec Volume_proof SMerge_model SMerge_spec SMerge_proof
  Groups_model Groups_spec Groups_proof Groups2_proof
  Stack_model Stack_spec Gen_proof Stack_proof Stack2_proof Stack3_proof Stack6_proof Stack7_proof
  Final_model Final_spec Final4_proof Nodes_spec Nodes_proof Sweep_model Sweep_spec.
From Coq Require Import Lra.
Open Scope nat_scope.

Definition vshift (w p : R * R * R) : R * R * R :=
  let '(x, y, z) := p in let '(a, b, c) := w in (x + a, y + b, z + c)%R.

Lemma vshift_add p vx vy vz : add3 p (vx, vy, vz) = vshift (vx, vy, vz) p.
Proof. destruct p as [[x y] z]. reflexivity. Qed.
Lemma vshift_vshift v w p : vshift v (vshift w p) = vshift (vshift v w) p.
Proof. destruct v as [[? ?] ?], w as [[? ?] ?], p as [[? ?] ?]. unfold vshift. f_equal; [f_equal|]; ring. Qed.
Lemma vshift_0 p : vshift (0, 0, 0)%R p = p.
Proof. destruct p as [[? ?] ?]. unfold vshift. f_equal; [f_equal|]; ring. Qed.

Section Sweep.
Context {D : Type} (num : Z -> D).

(* the base mesh moved by w *)
Definition at_off (w : R * R * R) (m : sbase D) : sbase D :=
  setp (sops num) (map (vshift w) (ss_pts (sb_surf m))) m.

Lemma at_off_view w m : base_view (at_off w m) = base_view m /\ ss_dims (sb_surf (at_off w m)) = ss_dims (sb_surf m) /\
  ss_ghost (sb_surf (at_off w m)) = ss_ghost (sb_surf m) /\ ss_cd (sb_surf (at_off w m)) = ss_cd (sb_surf m) /\
  ss_pts (sb_surf (at_off w m)) = map (vshift w) (ss_pts (sb_surf m)).
Proof. repeat split. Qed.

Lemma at_off_wf d w m : wf_base d m -> wf_base d (at_off w m).
Proof.
  intros (H1 & H2 & H3 & H4 & H5 & H6 & H7). split; [exact H1|]. split; [cbn; rewrite map_length; exact H2|].
  repeat (split; [assumption|]). exact H7.
Qed.

Definition move_item (w : R * R * R) (m : sbase D) (c : ex_call) : item (sbase D) :=
  mkItem (at_off w m) (ec_res c) (ec_method c) 0%Z 0 (ec_group c) false.

(* the items after the calls *)
Fixpoint move_items (w : R * R * R) (m : sbase D) (l : list (ex_call * (R * R * R))) : list (item (sbase D)) :=
  match l with
  | [] => []
  | (c, v) :: l' => move_item (vshift v w) m c :: move_items (vshift v w) m l'
  end.

Lemma at_off_again v w m : setp (sops num) (map (vshift v) (ss_pts (sb_surf (at_off w m)))) (at_off w m) = at_off (vshift v w) m.
Proof.
  unfold at_off. cbn [setp sops sb_surf ss_setp ss_pts ss_dims ss_pd ss_cd ss_ghost sb_cg sb_labels].
  rewrite map_map. f_equal. unfold ss_setp. cbn. f_equal. apply map_ext. intros p. apply vshift_vshift.
Qed.

Lemma calls_items m : forall l w pre last, it_mesh last = at_off w m ->
  Forall (fun cv => exists n, moves_by (fst cv) (snd cv) n) l ->
  extrude_calls num None None (pre ++ [last]) (map fst l) = Ok (pre ++ last :: move_items w m l).
Proof.
  induction l as [|[c v] l IH]; intros w pre last El HF; [reflexivity|].
  inversion HF as [|? ? [n Hm] HF']; subst. cbn [fst snd] in Hm. destruct v as [[vx vy] vz].
  destruct Hm as (Ev & Es & Ea & _). cbn [map fst extrude_calls].
  unfold extrude_call. rewrite rev_app_distr. cbn [rev app]. rewrite Ev, Es, Ea. unfold extrude_add. cbn [bind].
  rewrite El. cbn [getp sops].
  rewrite (map_ext _ (vshift (vx, vy, vz)) (fun p => vshift_add p vx vy vz)), at_off_again.
  fold (move_item (vshift (vx, vy, vz) w) m c).
  rewrite (IH (vshift (vx, vy, vz) w) (pre ++ [last]) (move_item (vshift (vx, vy, vz) w) m c) eq_refl HF'). rewrite <- app_assoc. reflexivity.
Qed.

Lemma vsum_cons v l : vsum (v :: l) = vshift (vsum l) v.
Proof. destruct v as [[x y] z]. cbn [vsum fold_right]. fold (vsum l). destruct (vsum l) as [[a b] c]. reflexivity. Qed.

Lemma vshift_comm3 u v w : vshift u (vshift v w) = vshift (vshift u v) w.
Proof. apply vshift_vshift. Qed.

Lemma items_nth m : forall l w j b, nth_error (move_items w m l) j = Some b ->
  exists c v, nth_error l j = Some (c, v) /\
    b = move_item (vshift (vsum (firstn (S j) (map snd l))) w) m c.
Proof.
  induction l as [|[c v] l IH]; intros w [|j] b; cbn [move_items nth_error]; try discriminate.
  - intros E. injection E as <-. exists c, v. split; [reflexivity|]. f_equal.
    cbn [map snd firstn]. rewrite vsum_cons. cbn [vsum fold_right]. now rewrite vshift_0.
  - intros E. destruct (IH _ _ _ E) as (c' & v' & E1 & E2). exists c', v'. split; [exact E1|]. rewrite E2. f_equal.
    cbn [map snd]. rewrite firstn_cons, vsum_cons, vshift_vshift. reflexivity.
Qed.

Lemma items_len m : forall l w, length (move_items w m l) = length l.
Proof. induction l as [|[c v] l IH]; intros w; cbn; auto. Qed.

Lemma items_all m l w (P : item (sbase D) -> Prop) :
  (forall w c v, In (c, v) l -> P (move_item w m c)) -> Forall P (move_items w m l).
Proof.
  revert w. induction l as [|[c v] l IH]; intros w H; constructor.
  - apply (H _ _ v). now left.
  - apply IH. intros w' c' v' Hin. apply (H _ _ v'). now right.
Qed.
End Sweep.

Section Program.
Context {D : Type} (num : Z -> D) (int : D -> Z) (Hint : forall z, int (num z) = z).
Context (volumes : shape3 -> list pt -> list R) (Hvol : forall dims pts, length (volumes dims pts) = n_cells dims).
Context (o : options) (ax : nat) (d : shape3) (Hax : ax <= 2) (Hu : unit_along ax d) (m : sbase D) (Hw : wf_base d m).
Context (calls : list ex_call) (vs : list (R * R * R)) (ns : list nat) (Hne : calls <> []) (Hmv : moves calls vs ns).

Definition sweep_items : list (item (sbase D)) :=
  mkItem (at_off num (0, 0, 0)%R m) ResNone None 0%Z 0 GNone false :: move_items num (0, 0, 0)%R m (combine calls vs).

Lemma at_off_0 : at_off num (0, 0, 0)%R m = m.
Proof.
  unfold at_off. destruct m as [[dd pp pd cd gh] cg lb]. cbn. unfold ss_setp. cbn. do 2 f_equal.
  rewrite <- (map_id pp) at 2. apply map_ext. apply vshift_0.
Qed.

Lemma call_at j c : nth_error calls j = Some c -> exists v n, nth_error vs j = Some v /\ nth_error ns j = Some n /\ moves_by c v n.
Proof.
  intros Hc. destruct Hmv as (Lv & Ln & HM). assert (Hj : j < length calls) by (apply nth_error_Some; congruence).
  destruct (nth_error vs j) as [v|] eqn:Ev; [|apply nth_error_None in Ev; lia].
  destruct (nth_error ns j) as [n|] eqn:En; [|apply nth_error_None in En; lia].
  exists v, n. eauto.
Qed.

Lemma combine_nth_some {A B} (l : list A) (l' : list B) : forall j a b,
  nth_error (combine l l') j = Some (a, b) <-> nth_error l j = Some a /\ nth_error l' j = Some b.
Proof.
  revert l'. induction l as [|x l IH]; intros [|y l'] [|j] a b; cbn [combine nth_error];
    try solve [split; [discriminate|intros [? ?]; discriminate]]; [|apply IH].
  split; [intros E|intros [E1 E2]]; split || idtac; congruence.
Qed.

Lemma map_fst_combine {A B} (l : list A) : forall (l' : list B), length l' = length l -> map fst (combine l l') = l.
Proof. induction l as [|x l IH]; intros [|y l'] H; cbn in *; try discriminate; [reflexivity|]. f_equal. apply IH. lia. Qed.
Lemma map_snd_combine {A B} (l : list A) : forall (l' : list B), length l' = length l -> map snd (combine l l') = l'.
Proof. induction l as [|x l IH]; intros [|y l'] H; cbn in *; try discriminate; [reflexivity|]. f_equal. apply IH. lia. Qed.

Lemma program_items : extrude_program num int volumes o None None m calls = extrude_mesh num int volumes o sweep_items.
Proof.
  unfold extrude_program, extrude_init. destruct Hw as (-> & _). destruct (unit_along_dim ax d Hax Hu) as (-> & _).
  cbn [negb Nat.eqb bind].
  pose proof (calls_items num m (combine calls vs) (0, 0, 0)%R [] (mkItem m ResNone None 0%Z 0 GNone false)) as H.
  cbn [app] in H. destruct Hmv as (Lv & Ln & HM). rewrite (map_fst_combine _ _ Lv) in H. rewrite H.
  - cbn [bind]. unfold sweep_items. now rewrite at_off_0.
  - cbn. symmetry. apply at_off_0.
  - rewrite Forall_forall. intros [c v] Hin. apply In_nth_error in Hin as [j Hj]. apply combine_nth_some in Hj as [Hc Hv].
    destruct (call_at j c Hc) as (v' & n & Hv' & Hn & Hm). rewrite Hv in Hv'. injection Hv' as <-. exists n. exact Hm.
Qed.

Lemma sweep_nth j b : nth_error sweep_items (S j) = Some b ->
  exists c v n, nth_error calls j = Some c /\ nth_error vs j = Some v /\ nth_error ns j = Some n /\ moves_by c v n /\
    b = move_item num (vsum (firstn (S j) vs)) m c.
Proof.
  cbn [sweep_items nth_error]. intros E. apply items_nth in E as (c & v & E & ->).
  destruct Hmv as (Lv & Ln & HM). rewrite (map_snd_combine _ _ Lv). apply combine_nth_some in E as [Hc Hv].
  destruct (call_at j c Hc) as (v' & n & Hv' & Hn & Hm). rewrite Hv in Hv'. injection Hv' as <-.
  exists c, v, n. repeat (split; [assumption|]). f_equal.
  destruct (vsum (firstn (S j) vs)) as [[? ?] ?]. unfold vshift. f_equal; [f_equal|]; ring.
Qed.

Lemma sweep_mesh j a : nth_error sweep_items j = Some a -> it_mesh a = at_off num (vsum (firstn j vs)) m.
Proof.
  destruct j as [|j]; intros E; [injection E as <-; reflexivity|].
  destruct (sweep_nth j a E) as (c & v & n & _ & _ & _ & _ & ->). reflexivity.
Qed.

Lemma sweep_some j : j < S (length calls) -> exists a, nth_error sweep_items j = Some a.
Proof.
  intros Hj. destruct (nth_error sweep_items j) as [a|] eqn:E; [eauto|]. apply nth_error_None in E. unfold sweep_items in E.
  cbn [length] in E. rewrite items_len, combine_length in E. destruct Hmv as (Lv & _). lia.
Qed.

Lemma sweep_wf : Forall (fun i => wf_base d (it_mesh i)) sweep_items.
Proof. constructor; [apply at_off_wf; exact Hw|]. apply items_all. intros w c v _. apply at_off_wf. exact Hw. Qed.

Lemma in_calls c v : In (c, v) (combine calls vs) -> exists n, moves_by c v n.
Proof.
  intros Hin. apply In_nth_error in Hin as [j Hj]. apply combine_nth_some in Hj as [Hc Hv].
  destruct (call_at j c Hc) as (v' & n & Hv' & Hn & Hm). rewrite Hv in Hv'. injection Hv' as <-. eauto.
Qed.

Lemma sweep_span : Forall (fun it => it_trans it = false /\ positions_span it /\ group_by_name it) (tl sweep_items).
Proof.
  apply items_all. intros w c v Hin. destruct (in_calls c v Hin) as (n & _ & _ & _ & Em & Hr & Hg).
  split; [reflexivity|]. split; [|exact Hg].
  apply (int_spans _ Constant).
  - cbn. destruct Hr as [[-> _]|(z & -> & _)]; eauto.
  - cbn. rewrite Em. constructor.
Qed.
Lemma sweep_trans : Forall (fun it => it_trans it = false) (tl sweep_items).
Proof. apply items_all. reflexivity. Qed.

Lemma forall2_of_nth {A B} (P : A -> B -> Prop) : forall (l : list A) (l' : list B), length l' = length l ->
  (forall j a b, nth_error l j = Some a -> nth_error l' j = Some b -> P a b) -> Forall2 P l l'.
Proof.
  induction l as [|x l IH]; intros [|y l'] L H; cbn in L; try discriminate; constructor.
  - apply (H 0); reflexivity.
  - apply IH; [lia|]. intros j a b Ha Hb. apply (H (S j)); auto.
Qed.

Lemma sweep_even : Forall2 even_item (tl sweep_items) ns.
Proof.
  destruct Hmv as (Lv & Ln & _). apply forall2_of_nth.
  { cbn [tl sweep_items]. rewrite items_len, combine_length. lia. }
  intros j b n Hb Hn. destruct (sweep_nth j b Hb) as (c & v & n' & Hc & Hv & Hn' & Hm & ->).
  rewrite Hn in Hn'. injection Hn' as <-. destruct Hm as (_ & _ & _ & Em & Hr & _). split; [exact Em|exact Hr].
Qed.

Lemma sweep_defined : exists g labels, extrude_program num int volumes o None None m calls = Ok (g, labels).
Proof.
  rewrite program_items. apply (extrude_mesh_defined num int volumes o ax d); auto using sweep_wf, sweep_span.
  unfold sweep_items. cbn [length]. rewrite items_len, combine_length. destruct Hmv as (Lv & _).
  assert (1 <= length calls) by (clear -Hne; destruct calls; [congruence|cbn; lia]). lia.
Qed.

Context (g : sgrid D) (labels : dict) (H : extrude_program num int volumes o None None m calls = Ok (g, labels)).

Lemma sweep_nodes : sg_dims g = setc ax (S (list_sum ns)) d /\ length (sg_pts g) = size3 (sg_dims g) /\
  forall j v n c k p, nth_error vs j = Some v -> nth_error ns j = Some n -> k <= n -> in_shape d c ->
    at_coord d (ss_pts (sb_surf m)) c = Some p ->
    at_coord (sg_dims g) (sg_pts g) (setc ax (list_sum (firstn j ns) + k) c) = Some (moved p vs j v k n).
Proof.
  pose proof H as H'. rewrite program_items in H'.
  destruct (extrude_even num int volumes o ax d sweep_items ns g labels Hax Hu sweep_wf sweep_trans sweep_even H')
    as (Hd & HL & HN).
  split; [exact Hd|]. split; [exact HL|]. intros j v n c k p Hv Hn Hk Hc Hp.
  destruct Hmv as (Lv & Ln & _).
  assert (Hj : j < length calls) by (rewrite <- Ln; apply nth_error_Some; congruence).
  destruct (sweep_some j ltac:(lia)) as [a Ha]. destruct (sweep_some (S j) ltac:(lia)) as [b Hb].
  assert (Ea : at_coord d (ss_pts (sb_surf (it_mesh a))) c = Some (vshift (vsum (firstn j vs)) p)).
  { rewrite (sweep_mesh j a Ha). unfold at_coord in *. cbn. rewrite nth_error_map, Hp. reflexivity. }
  assert (Eb : at_coord d (ss_pts (sb_surf (it_mesh b))) c = Some (vshift (vsum (firstn (S j) vs)) p)).
  { rewrite (sweep_mesh (S j) b Hb). unfold at_coord in *. cbn. rewrite nth_error_map, Hp. reflexivity. }
  assert (Es : vsum (firstn (S j) vs) = vshift (vsum (firstn j vs)) v).
  { clear -Hv. revert j Hv. induction vs as [|u l IH]; intros [|j] Hv; try discriminate.
    - injection Hv as ->. cbn [firstn]. rewrite vsum_cons. reflexivity.
    - cbn [nth_error] in Hv. rewrite !firstn_cons, !vsum_cons, (IH j Hv).
      destruct (vsum (firstn j l)) as [[? ?] ?], u as [[? ?] ?], v as [[? ?] ?]. unfold vshift. f_equal; [f_equal|]; ring. }
  rewrite Es in Eb. unfold moved.
  destruct p as [[x y] z], v as [[vx vy] vz], (vsum (firstn j vs)) as [[e1 e2] e3]. cbn [vshift] in Ea, Eb.
  rewrite (HN j a b n c k _ _ _ _ _ _ Ha Hb Hn Hk Hc Ea Eb). f_equal.
  apply injective_projections; [apply injective_projections|]; cbn [fst snd]; ring.
Qed.

Lemma sweep_counts nsubs : layer_counts (tl sweep_items) nsubs -> nsubs = ns.
Proof. apply even_counts. exact sweep_even. Qed.

Lemma sweep_groups : numbered labels /\ NoDup (map fst (sg_cd g)) /\
  exists cg names, In ("CellGroup"%string, cg) (sg_cd g) /\
    get_cell_group (Some (map int cg)) (Some labels) = Ok (Some (inl names)) /\
    length names = n_cells (sg_dims g) /\
    (forall k, In k (map fst labels) <-> In k names) /\
    forall c, in_shape (cell_shape (sg_dims g)) c ->
      exists j call k, layer_in ns (comp ax c) j /\ nth_error calls j = Some call /\
        at_coord (cell_shape (sg_dims g)) names c = Some k /\
        item_name o (base_view m) (ec_group call) (fidx (cell_shape d) (setc ax 0 c)) k.
Proof.
  pose proof H as H'. rewrite program_items in H'.
  destruct (extrude_final num int Hint volumes Hvol o ax d sweep_items g labels Hax Hu sweep_wf sweep_trans H')
    as (nsubs & HL & _ & (H1 & H2 & cg & names & H3 & H4 & H5 & H6 & H7) & _).
  apply sweep_counts in HL. subst nsubs. split; [exact H1|]. split; [exact H2|]. exists cg, names.
  repeat (split; [assumption|]). intros c Hc. destruct (H7 c Hc) as (j & a & b & k & Hj & Ha & Hb & Hk & Hi).
  destruct (sweep_nth j b Hb) as (call & v & n & Hcall & _ & _ & _ & ->).
  exists j, call, k. repeat (split; [assumption|]).
  rewrite (sweep_mesh j a Ha) in Hi. exact Hi.
Qed.

Lemma sweep_ghosts :
  (sg_ghost g = [] \/
   length (sg_ghost g) = n_cells (sg_dims g) /\
   exists c, in_shape (cell_shape (sg_dims g)) c /\ flag_at (cell_shape (sg_dims g)) (sg_ghost g) c <> 0) /\
  forall c, in_shape (cell_shape (sg_dims g)) c ->
    exists j v n pts w, layer_in ns (comp ax c) j /\ nth_error vs j = Some v /\ nth_error ns j = Some n /\
      length pts = size3 (setc ax (S n) d) /\
      (forall c' p, in_shape (setc ax (S n) d) c' -> at_coord d (ss_pts (sb_surf m)) (setc ax 0 c') = Some p ->
         at_coord (setc ax (S n) d) pts c' = Some (moved p vs j v (comp ax c') n)) /\
      at_coord (cell_shape (setc ax (S n) d)) (volumes (setc ax (S n) d) pts)
        (setc ax (comp ax c - list_sum (firstn j ns)) c) = Some w /\
      (w = 0%R -> flag_at (cell_shape (sg_dims g)) (sg_ghost g) c = 32) /\
      (w <> 0%R -> flag_at (cell_shape (sg_dims g)) (sg_ghost g) c =
                   base_flag (cell_shape d) (ss_ghost (sb_surf m)) (setc ax 0 c)).
Proof.
  pose proof H as H'. rewrite program_items in H'.
  destruct (extrude_final num int Hint volumes Hvol o ax d sweep_items g labels Hax Hu sweep_wf sweep_trans H')
    as (nsubs & HL & _ & _ & (H1 & H2) & _).
  apply sweep_counts in HL. subst nsubs. split; [exact H1|].
  intros c Hc. destruct (H2 c Hc) as (j & a & b & perc & pts & w & Hj & Ha & Hb & Hp & [Lp HB] & Hw0 & H32 & Hbf).
  destruct (sweep_nth j b Hb) as (call & v & n & Hcall & Hv & Hn & Hm & Eb).
  assert (He : even_item b n).
  { subst b. destruct Hm as (_ & _ & _ & Em & Hr & _). split; [exact Em|exact Hr]. }
  destruct (even_perc b n He) as [E Hn1]. rewrite E in Hp. apply Ok_inj in Hp. subst perc.
  rewrite map_length, seq_length in *.
  exists j, v, n, pts, w. repeat (split; [assumption|]).
  assert (Ea : ss_ghost (sb_surf (it_mesh a)) = ss_ghost (sb_surf m)) by (rewrite (sweep_mesh j a Ha); reflexivity).
  rewrite Ea in Hbf. split; [|auto].
  intros c' p Hc' Hp'.
  assert (Hk : comp ax c' < S n) by (pose proof (in_shape_comp ax _ _ Hc') as HH; rewrite comp_setc in HH; exact HH).
  assert (Hkt : nth_error (map (fun k => INR k / INR n)%R (seq 0 (S n))) (comp ax c') = Some (INR (comp ax c') / INR n)%R).
  { rewrite nth_error_map, (nth_error_nth' _ 0) by (rewrite seq_length; lia). rewrite seq_nth by lia. reflexivity. }
  assert (Es : vsum (firstn (S j) vs) = vshift (vsum (firstn j vs)) v).
  { clear -Hv. revert j Hv. induction vs as [|u l IH]; intros [|j] Hv; try discriminate.
    - injection Hv as ->. cbn [firstn]. rewrite vsum_cons. reflexivity.
    - cbn [nth_error] in Hv. rewrite !firstn_cons, !vsum_cons, (IH j Hv).
      destruct (vsum (firstn j l)) as [[? ?] ?], u as [[? ?] ?], v as [[? ?] ?]. unfold vshift. f_equal; [f_equal|]; ring. }
  rewrite (HB c' _ (vshift (vsum (firstn j vs)) p) (vshift (vsum (firstn (S j) vs)) p) Hc' Hkt).
  - rewrite Es. unfold moved. destruct p as [[x y] z], v as [[vx vy] vz], (vsum (firstn j vs)) as [[e1 e2] e3]. cbn [vshift].
    f_equal. apply injective_projections; [apply injective_projections|]; cbn [fst snd]; ring.
  - rewrite (sweep_mesh j a Ha). unfold at_coord in *. cbn. rewrite nth_error_map, Hp'. reflexivity.
  - rewrite (sweep_mesh (S j) b Hb). unfold at_coord in *. cbn. rewrite nth_error_map, Hp'. reflexivity.
Qed.
End Program.
