From Verif Require Import Lines_spec Lines1_proof RealAux Perc_model Perc_spec Perc_proof Surface_model Surface_spec Surface_proof
  Volume_model Volume_spec Volume_proof SMerge_model SMerge_spec SMerge_proof
  Groups_model Groups_spec Groups_proof Groups2_proof Polygon_model
  Stack_model Stack_spec Gen_proof Stack_proof Stack2_proof Stack3_proof Stack4_proof Stack6_proof Stack7_proof
  Final_model Final_spec Final1_proof Trans_model Trans_spec Trans1_proof Trans2_proof Trans3_proof Trans5_proof Trans6_proof
  Line_spec Line3_proof Settle_spec Settle_proof Input_model Input1_proof
  Pile_model Pile_spec Pile_proof Pile3_model Pile3_spec Pile3_proof Pile4_model Pile4_spec Pile4_proof Pile4b_proof.
From Verif Require Lines_model Polygon_spec Polygon5_proof Surface2_spec Surface2_proof.
From Coq Require Import Lra Ascii.
Import Lines_model(lmesh, l_pts, l_cells, l_pd, l_cd, mkL).
Open Scope nat_scope.

Section Straight.
Context {D : Type} (num : Z -> D) (ax : nat).
Notation ops := (tops num).

Lemma placed_straight base (m : lbase D) zs it : fits base m -> length zs = length base -> it_mesh it = placed ops ax m zs ->
  straight it /\ length (points ops it) = length base.
Proof.
  intros (n & Lb & Eb & Ei & (W1 & W2 & W3 & W4) & Hl) Lz E.
  assert (LP : length (getp ops (placed ops ax m zs)) = length base).
  { unfold placed. rewrite (proj1 (tops_lawful num)), map2_length. change (getp ops m = base) in Eb. rewrite Eb, Lz. lia. }
  split; [|unfold points; now rewrite E]. exists n. rewrite E. split; [|split; [exact Ei|exact Hl]].
  split; [exact W1|]. split; [exact W2|]. split; [|exact W4]. rewrite <- Lb. exact LP.
Qed.

Lemma only_straight (it j : item (lbase D)) : straight it -> only_points ops it j -> length (points ops j) = length (points ops it) -> straight j.
Proof.
  intros (n & (W1 & W2 & W3 & W4) & Ei & Hl) (E & _) L. exists n. rewrite E. split; [|split; [exact Ei|exact Hl]].
  split; [exact W1|]. split; [exact W2|]. split; [|exact W4]. change (length (points ops j) = S (S n)). rewrite L. exact W3.
Qed.

Lemma straight_wf (it : item (lbase D)) : straight it -> Trans_spec.wf_line (size it) (it_mesh it).
Proof.
  intros (n & (W1 & W2 & W3 & W4 & W5 & W6 & W7 & W8 & W9 & W10) & _). unfold size. rewrite W3. unfold Trans_spec.wf_line.
  rewrite W2. replace (S (S n) - 1) with (S n) by lia. split; [lia|]. split; [exact W3|]. split; [exact W4|]. split; [now apply Forall_forall|]. split; [reflexivity|].
  split; [exact W6|]. split; [exact W7|]. split; [exact W8|]. split; [exact W9|exact W10].
Qed.

Lemma sizes_app (l1 l2 : list (item (lbase D))) : same_sizes l1 -> match l2 with t :: _ => it_trans t = true | [] => True end -> same_sizes l2 -> same_sizes (l1 ++ l2).
Proof.
  intros H1 Ht H2 j a b Ha Hb Tb. destruct (Nat.lt_ge_cases (S j) (length l1)) as [L|L].
  - rewrite nth_error_app1 in Ha, Hb by lia. eauto.
  - rewrite nth_error_app2 in Hb by lia. destruct (S j - length l1) as [|k] eqn:Ek.
    + destruct l2 as [|t l2]; [discriminate|]. injection Hb as <-. congruence.
    + rewrite nth_error_app2 in Ha by lia. replace (j - length l1) with k in Ha by lia. eauto.
Qed.

Lemma sizes_equal n (l : list (item (lbase D))) : Forall (fun i => length (points ops i) = n) l -> same_sizes l.
Proof.
  intros H j a b Ha Hb _. rewrite Forall_forall in H. change (length (points ops a) = length (points ops b)).
  rewrite (H a), (H b); [reflexivity| |]; eapply nth_error_In; eauto.
Qed.
End Straight.

(* what the cut and the calls leave *)
Definition asked {D} (mc : bool * st_call) (it : item (lbase D)) : Prop :=
  it_trans it = fst mc /\ it_res it = ao_res (sc_opts (snd mc)) /\ it_method it = ao_method (sc_opts (snd mc)) /\ it_group it = ao_group (sc_opts (snd mc)).

Lemma asked_only {D} (num : Z -> D) mc it j : asked mc it -> only_points (tops num) it j -> asked mc j.
Proof. intros (A1 & A2 & A3 & A4) (_ & B1 & B2 & _ & _ & B3 & B4). repeat split; congruence. Qed.

Lemma Forall2_comp {A B C} (P : A -> B -> Prop) (Q : B -> C -> Prop) (S : A -> C -> Prop) l1 l2 l3 :
  (forall a b c, P a b -> Q b c -> S a c) -> Forall2 P l1 l2 -> Forall2 Q l2 l3 -> Forall2 S l1 l3.
Proof.
  intros H H1. revert l3. induction H1 as [|a b l1 l2 Hp _ IH]; intros l3 H2; inversion H2; subst; constructor; eauto.
Qed.

Section Program.
Context {D : Type} (num : Z -> D) (int : D -> Z) (gm : gmsh) (result : list gop -> gmsh_mesh) (other : list R -> list R -> list R -> list R).
Context (areas : shape3 -> list pt -> list R) (pvmerge : list (block D) -> res (block D)) (interp : list pt -> list pt -> res (list R)).
Context (o : options) (ax : nat) (Hax : ax <= 2) (bu : bool) (arg : list R + lmesh pt D) (pts : list pt).
Context (first : list st_call) (segs : list ((Z + lmesh pt D) * list st_call)) (rs : list (list pt * list st_call)).
Context (Hok : base_ok arg) (Hpts : base_points ax arg pts) (Hfirst : regular_run interp pts first) (Hruns : runs interp pts segs rs) (Hsegs : segs <> []).
Notation ops := (tops num).

Lemma runs_regular p s r : runs (D := D) interp p s r -> Forall (fun x => regular_run interp (fst x) (snd x) /\ opening (snd x)) r /\ length r = length s.
Proof. induction 1 as [|? ? ? ? ? ? ? ? ? ? [IH1 IH2]]; [auto|]. split; [constructor; auto|cbn; lia]. Qed.

Lemma program_items : exists m0 its0 mis, fits pts m0 /\ run_items num ax bu interp true m0 first its0 /\
  Forall2 (fun r mi => fits (fst r) (fst mi) /\ run_items num ax bu interp false (fst mi) (snd r) (snd mi)) rs mis /\
  transition_items num int other interp (Z.of_nat ax) bu arg (program_of first segs) = Ok (ax, its0 ++ concat (map snd mis)).
Proof.
  destruct Hfirst as (L2 & Hne & Hacc & _). destruct (length pts) as [|[|n]] eqn:Lp; try lia.
  destruct (base_made int ax arg pts n Hax Hok Hpts Lp) as (line & E1 & E2 & E3 & E4 & _).
  set (m := line_base int line) in *.
  assert (Hf : fits pts m) by (exists n; repeat (split; [now auto|]); reflexivity).
  destruct (first_made num int other ax bu interp m first) as (its0 & HR & HC).
  { change (getp ops m) with (ln_pts (lb_line m)). now rewrite E2. }
  destruct (run_head num ax bu interp true m first its0 Hne HR) as (i1 & rest & Ei & _).
  destruct (runs_made num int other ax Hax bu interp pts segs rs Hruns (mkStack m its0 false)) as (mis & m' & HM & HC'); auto.
  { intros E. rewrite E in Lp. discriminate. }
  { cbn. rewrite Ei. discriminate. }
  exists m, its0, mis. split; [exact Hf|]. split; [exact HR|]. split; [exact HM|].
  unfold transition_program, transition_items, program_of. rewrite Nat2Z.id, E1. cbn [bind]. unfold stack_init. rewrite Nat2Z.id.
  replace ((0 <=? Z.of_nat ax) && (Z.of_nat ax <=? 2))%Z%bool with true by (symmetry; apply andb_true_intro; split; lia).
  cbn [negb bind]. fold m. rewrite tr_calls_app, HC. cbn [bind]. rewrite HC'. cbn [bind st_items]. reflexivity.
Qed.

(* a transition to a mesh without lines *)
Lemma program_no_line l (m : lmesh pt D) : l_cells m = [] ->
  transition_program num int gm result other areas pvmerge interp o (Z.of_nat ax) bu arg (program_of first segs ++ TrSet (inr m) :: l) = Err IndexError.
Proof.
  intros Em. destruct Hfirst as (L2 & Hne & Hacc & _). destruct (length pts) as [|[|n]] eqn:Lp; try lia.
  destruct (base_made int ax arg pts n Hax Hok Hpts Lp) as (line & E1 & E2 & E3 & E4 & _).
  set (m0 := line_base int line) in *.
  destruct (first_made num int other ax bu interp m0 first) as (its0 & HR & HC).
  { change (getp ops m0) with (ln_pts (lb_line m0)). now rewrite E2. }
  destruct (run_head num ax bu interp true m0 first its0 Hne HR) as (i1 & rest & Ei & _).
  destruct (runs_made num int other ax Hax bu interp pts segs rs Hruns (mkStack m0 its0 false)) as (mis & m' & HM & HC'); auto.
  { intros E. rewrite E in Lp. discriminate. }
  { cbn. rewrite Ei. discriminate. }
  unfold transition_program, transition_items, program_of. rewrite Nat2Z.id, E1. cbn [bind]. unfold stack_init. rewrite Nat2Z.id.
  replace ((0 <=? Z.of_nat ax) && (Z.of_nat ax <=? 2))%Z%bool with true by (symmetry; apply andb_true_intro; split; lia).
  cbn [negb bind]. fold m0. rewrite !tr_calls_app, HC. cbn [bind]. rewrite HC'. cbn [bind tr_calls tr_step new_line].
  unfold transition_line, Lines_model.split_lines. rewrite Em. cbn. reflexivity.
Qed.

Lemma items_flat m0 its0 mis : fits pts m0 -> run_items num ax bu interp true m0 first its0 ->
  Forall2 (fun r mi => fits (fst r) (fst mi) /\ run_items num ax bu interp false (fst mi) (snd r) (snd mi)) rs mis ->
  exists i1 r1, its0 = i1 :: r1 /\ Forall straight (its0 ++ concat (map snd mis)) /\ same_sizes (its0 ++ concat (map snd mis)) /\
    Forall2 asked (tl (marks ((pts, first) :: rs))) (r1 ++ concat (map snd mis)) /\
    Forall (fun its => match its with t :: _ => it_trans t = true | [] => False end) (map snd mis).
Proof.
  intros Hf HR HM. destruct Hfirst as (_ & Hne & _).
  destruct (run_head num ax bu interp true m0 first its0 Hne HR) as (i1 & r1 & -> & _). exists i1, r1. split; [reflexivity|].
  pose proof (run_fits num ax bu interp true pts m0 first _ Hf HR) as HF.
  assert (HSt : forall b base m (calls : list st_call) its, fits base m -> Forall2 (fit_item num ax b base m) (marked calls) its ->
    Forall straight its /\ Forall (fun i => length (points ops i) = length base) its).
  { intros b base m calls its Hfm H. split; apply Forall_forall; intros it Hin; apply In_nth_error in Hin as [j Hj];
      destruct (Forall2_nth_r _ _ _ H j it Hj) as (mc & _ & (zs & Lz & E) & _); now apply (placed_straight num ax base m zs it Hfm Lz E). }
  destruct (HSt _ _ _ _ _ Hf HF) as [S1 S2].
  pose proof (runs_regular _ _ _ Hruns) as [HRR _].
  assert (HX : Forall (fun its => match its with t :: _ => it_trans t = true | [] => False end) (map snd mis) /\ Forall straight (concat (map snd mis)) /\
    same_sizes (concat (map snd mis)) /\ Forall2 asked (marks rs) (concat (map snd mis))).
  { clear - HM HRR HSt. induction HM as [|r mi rs mis [Hfm HRm] HM IH].
    { cbn. repeat split; auto; try constructor. intros [|j]; discriminate. }
    inversion HRR as [|? ? [(_ & Hne & _) _] HRR']; subst. destruct (IH HRR') as (I1 & I2 & I3 & I4). clear IH.
    pose proof (run_fits num ax bu interp false (fst r) (fst mi) (snd r) _ Hfm HRm) as HF. destruct (HSt _ _ _ _ _ Hfm HF) as [S1 S2].
    destruct (run_head num ax bu interp false (fst mi) (snd r) (snd mi) Hne HRm) as (t & r' & Et & Tt & _).
    cbn [map concat]. split; [constructor; [rewrite Et; exact Tt|exact I1]|]. split; [apply Forall_app; auto|]. split.
    - apply sizes_app; [now apply (sizes_equal num (length (fst r)))| |exact I3].
      destruct (map snd mis) as [|x l]; [exact I|]. inversion I1 as [|? ? X _]; subst. destruct x; [destruct X|exact X].
    - unfold marks. cbn [flat_map]. apply Forall2_app; [|exact I4]. change (Forall2 asked (marked (snd r)) (snd mi)).
      clear - HF. induction HF as [|mc it l l' (_ & T & H) _ IH]; constructor; [|exact IH].
      cbn [negb] in T. rewrite Bool.andb_true_r in T. rewrite Bool.andb_false_r in H. destruct (H eq_refl) as (? & ? & ?). repeat split; auto. }
  destruct HX as (X1 & X2 & X3 & X4). split; [apply Forall_app; auto|]. split; [|split; [|exact X1]].
  - apply sizes_app; [now apply (sizes_equal num (length pts))| |exact X3].
    destruct (map snd mis) as [|x l]; [exact I|]. inversion X1 as [|? ? X _]; subst. destruct x; [destruct X|exact X].
  - unfold marks. cbn [flat_map snd]. destruct first as [|c cs]; [congruence|]. cbn [app tl]. apply Forall2_app; [|exact X4].
    cbn [marked] in HF. inversion HF as [|? ? ? ? _ HF']; subst. clear - HF'.
    remember (map (pair false) cs) as l eqn:El. revert cs El. induction HF' as [|mc it l l' (_ & T & H) _ IH]; intros cs El; [constructor|].
    destruct cs as [|c cs]; [discriminate|]. injection El as -> ->. constructor; [|now apply (IH cs)].
    destruct (H eq_refl) as (? & ? & ?). repeat split; auto.
Qed.

Lemma marks_regular mk call j : nth_error (marks ((pts, first) :: rs)) (S j) = Some (mk, call) ->
  (mk = false -> regular_call call) /\ (ao_group (sc_opts call) = GNone \/ exists s, ao_group (sc_opts call) = GStr s).
Proof.
  assert (HX : Forall (fun mc : bool * st_call => (fst mc = false -> regular_call (snd mc)) /\
     (ao_group (sc_opts (snd mc)) = GNone \/ exists s, ao_group (sc_opts (snd mc)) = GStr s)) (tl (marks ((pts, first) :: rs)))).
  { pose proof (runs_regular _ _ _ Hruns) as [HRR _]. destruct Hfirst as (_ & Hne & _ & Hreg). unfold marks. cbn [flat_map snd].
    destruct first as [|c cs]; [congruence|]. cbn [app tl] in *.
    assert (HP : forall l, Forall regular_call l -> Forall (fun mc : bool * st_call => (fst mc = false -> regular_call (snd mc)) /\
     (ao_group (sc_opts (snd mc)) = GNone \/ exists s, ao_group (sc_opts (snd mc)) = GStr s)) (map (pair false) l)).
    { intros l H. apply Forall_forall. intros mc Hin. apply in_map_iff in Hin as (x & <- & Hx). rewrite Forall_forall in H.
      split; [intros _; now apply H|]. exact (proj2 (H x Hx)). }
    apply Forall_app. split; [now apply HP|]. clear - HRR HP. induction HRR as [|r rs [(_ & _ & _ & Hr) Ho] _ IH]; [constructor|]. cbn [flat_map].
    apply Forall_app. split; [|exact IH]. destruct (snd r) as [|c cs]; [constructor|]. constructor; [|now apply HP].
    split; [discriminate|]. exact (proj2 Ho). }
  intros E. destruct (marks ((pts, first) :: rs)) as [|x l]; [discriminate|]. cbn [tl] in HX. rewrite Forall_forall in HX.
  exact (HX (mk, call) (nth_error_In l j E)).
Qed.

Lemma program_defined : gmsh_works gm result -> (forall bs, exists m, pvmerge bs = Ok m) ->
  exists g groups, transition_program num int gm result other areas pvmerge interp o (Z.of_nat ax) bu arg (program_of first segs) = Ok (g, groups).
Proof.
  intros Hg Hp. destruct program_items as (m0 & its0 & mis & Hf & HR & HM & Et). unfold transition_program. rewrite Et. cbn [bind].
  destruct (items_flat m0 its0 mis Hf HR HM) as (i1 & r1 & -> & F1 & F2 & F3 & F4).
  destruct (trans_defined num gm result areas pvmerge o ax bu ((i1 :: r1) ++ concat (map snd mis))) as ([[[g groups] n] js] & E); auto.
  - destruct mis as [|mi mis]; [|]. { inversion HM; subst. inversion Hruns; congruence. }
    inversion F4 as [|? ? X _]; subst. cbn [map concat] in *. destruct (snd mi); [destruct X|]. cbn. rewrite !app_length. cbn. lia.
  - eapply Forall_impl; [|exact F1]. intros it. apply straight_wf.
  - cbn [app tl]. apply Forall_forall. intros it Hin. apply In_nth_error in Hin as [j Hj].
    destruct (Forall2_nth_r _ _ _ F3 j it Hj) as ([mk call] & Ej & T & A1 & A2 & A3). cbn [fst snd] in *.
    assert (Ej' : nth_error (marks ((pts, first) :: rs)) (S j) = Some (mk, call)).
    { destruct (marks ((pts, first) :: rs)); [destruct j; discriminate|exact Ej]. }
    destruct (marks_regular mk call j Ej') as [R1 R2]. unfold positions_span, group_by_name. rewrite A1, A2, A3. split; [|exact R2].
    intros Tf. exact (proj1 (R1 ltac:(congruence))).
  - rewrite E. cbn [bind]. eauto.
Qed.

(* the blocks made from the items, before they are merged *)
Lemma pieces m0 its0 mis i1 r1 j1 rest' bs groups n : fits pts m0 -> run_items num ax bu interp true m0 first its0 ->
  Forall2 (fun r mi => fits (fst r) (fst mi) /\ run_items num ax bu interp false (fst mi) (snd r) (snd mi)) rs mis ->
  its0 = i1 :: r1 -> cut_loop ops ax bu i1 (r1 ++ concat (map snd mis)) = Ok (j1 :: rest') ->
  gen_loop ops o "StackItem" (generator areas ax) (transition num gm result o) 0 0 [] j1 rest' = Ok (bs, groups, n) ->
  Forall straight (j1 :: rest') /\
  numbered groups /\ (exists j pts tris cd, nth_error bs j = Some (BTri pts tris cd)) /\
  exists lines nsubs, Forall2 (run_lines interp ax bu) ((pts, first) :: rs) lines /\
    S (length bs) = length (concat lines) /\ length nsubs = length bs /\
    forall j mk call la lb, nth_error (marks ((pts, first) :: rs)) (S j) = Some (mk, call) ->
      nth_error (concat lines) j = Some la -> nth_error (concat lines) (S j) = Some lb ->
      exists ns blk, nth_error nsubs j = Some ns /\ nth_error bs j = Some blk /\
        block_facts num gm result ns (length la - 1) (list_sum (firstn j nsubs)) j blk /\
        (mk = true -> ns = 1 /\ exists pts tris cd, blk = BTri pts tris cd /\ mesh_between gm result la lb pts tris /\
           cells_named num groups (default_group o) call (length tris) cd /\
           uniform_ids num "StackItem" (length tris) (-1) (Z.of_nat (list_sum (firstn j nsubs))) (Z.of_nat j) cd) /\
        (mk = false -> exists s, blk = BGrid s /\ strip_between ax call la lb ns s /\
           cells_named num groups (default_group o) call (ns * (length la - 1)) (sg_cd s) /\
           (1 <= ax -> line_block_ids num "StackItem" ax ns (length la - 1) (list_sum (firstn j nsubs)) j s)).
Proof.
  intros Hf HR HM Ei0 Hc Hg.
  destruct (items_flat m0 its0 mis Hf HR HM) as (i1' & r1' & Ei & F1 & F2 & F3 & F4). rewrite Ei0 in Ei. injection Ei as <- <-. subst its0.
  pose proof (cut_loop_sizes _ (tops_lawful num) _ _ _ _ _ Hc) as HF.
  assert (HSt : Forall straight (j1 :: rest')).
  { cbn [app] in F1. clear - HF F1. remember (i1 :: r1 ++ concat (map snd mis)) as its. clear Heqits. revert F1.
    induction HF as [|it j l l' [H1 H2] _ IH]; intros F; constructor; inversion F; subst; [now apply (only_straight num it)|now apply IH]. }
  assert (HA : Forall2 asked (tl (marks ((pts, first) :: rs))) rest').
  { inversion HF as [|? ? ? ? _ HF']; subst. apply (Forall2_comp _ _ _ _ _ _ (fun a b c P Q => asked_only num a b c P (proj1 Q)) F3 HF'). }
  destruct (cut_runs num ax bu (map snd mis) i1 r1 _ F4 Hc) as (j0 & jss & Ej & Hc0 & Hcs).
  destruct (blocks_between num gm result areas o ax Hax j1 rest' bs groups n HSt Hg) as (Hn & nsubs & Ln & Lb & En & HB).
  split; [exact HSt|]. split; [exact Hn|]. split; [|exists (map (map (points ops)) (j0 :: jss)), nsubs].
  { assert (HT : exists j b, nth_error rest' j = Some b /\ it_trans b = true).
    { pose proof (runs_regular _ _ _ Hruns) as [HRR Lr]. destruct rs as [|r rs']; [destruct segs; [congruence|discriminate]|].
      inversion HRR as [|? ? [(_ & Hne & _) _] _]; subst. 
      assert (exists k call, nth_error (tl (marks ((pts, first) :: r :: rs'))) k = Some (true, call)) as (k & call & Ek).
      { destruct first as [|c0 cs0]; [destruct Hfirst as (_ & X & _); congruence|]. destruct (snd r) as [|c cs] eqn:Er; [congruence|].
        exists (length (map (pair false) cs0)), c. unfold marks. cbn [flat_map snd app tl]. rewrite nth_error_app2 by lia. rewrite Nat.sub_diag, Er. reflexivity. }
      destruct (Forall2_nth_l _ _ _ HA k _ Ek) as (b & Hb & T & _). exists k, b. auto. }
    destruct HT as (j & b & Hb & T). destruct (Forall2_nth_r _ _ _ HA j b Hb) as ([mk call] & Ek & T' & A1 & A2 & A3). cbn [fst snd] in *.
    assert (Ek' : nth_error (marks ((pts, first) :: rs)) (S j) = Some (mk, call)).
    { destruct (marks ((pts, first) :: rs)); [destruct j; discriminate|exact Ek]. }
    destruct (nth_prev j1 rest' j b Hb) as [a Ha].
    destruct (HB j a b call Ha Hb A3 A1 A2 (proj2 (marks_regular mk call j Ek'))) as (ns & blk & _ & Hblk & _ & HTr & _).
    destruct (HTr T) as (_ & p & t & cd & -> & _). eauto. }
  assert (EL : concat (map (map (points ops)) (j0 :: jss)) = map (points ops) (j1 :: rest')).
  { rewrite <- concat_map. f_equal. symmetry. exact Ej. }
  rewrite EL. split; [|split; [rewrite map_length; cbn; lia|split; [lia|]]].
  - cbn [map]. constructor.
    + exact (proj1 (run_cut num ax Hax bu interp true pts m0 first (i1 :: r1) j0 Hf (proj1 (proj2 Hfirst)) HR Hc0)).
    + pose proof (runs_regular _ _ _ Hruns) as [HRR _]. clear - HM Hcs HRR Hax. revert jss Hcs HRR.
      induction HM as [|r mi rs mis [Hfm HRm] _ IH]; intros jss Hcs HRR; cbn [map] in Hcs; inversion Hcs as [|? y ? ys Hy Hys]; subst; [constructor|].
      inversion HRR as [|? ? [(_ & Hne & _) _] HRR']; subst. cbn [map]. constructor; [|now apply IH].
      destruct r as [base calls]. exact (proj1 (run_cut num ax Hax bu interp false base (fst mi) calls (snd mi) y Hfm Hne HRm Hy)).
  - intros j mk call la lb Em Ea Eb. rewrite nth_error_map in Ea, Eb.
    destruct (nth_error (j1 :: rest') j) as [a|] eqn:Ha; [|discriminate]. destruct (nth_error (j1 :: rest') (S j)) as [b|] eqn:Hb; [|discriminate].
    cbn [option_map] in Ea, Eb. injection Ea as <-. injection Eb as <-. change (nth_error rest' j = Some b) in Hb.
    destruct (Forall2_nth_r _ _ _ HA j b Hb) as ([mk' call'] & Ek & T' & A1 & A2 & A3). cbn [fst snd] in *.
    assert (Ek' : nth_error (marks ((pts, first) :: rs)) (S j) = Some (mk', call')).
    { destruct (marks ((pts, first) :: rs)); [destruct j; discriminate|exact Ek]. }
    rewrite Em in Ek'. injection Ek' as <- <-.
    destruct (HB j a b call Ha Hb A3 A1 A2 (proj2 (marks_regular mk call j Em))) as (ns & blk & B1 & B2 & BF & B3 & B4).
    exists ns, blk. split; [exact B1|]. split; [exact B2|]. split; [exact BF|]. split; [intros T; apply B3; congruence|intros T; apply B4; congruence].
Qed.

Lemma grids_not (bs : list (block D)) j p t cd : nth_error bs j = Some (BTri p t cd) -> grids_of bs = None.
Proof.
  revert j. induction bs as [|x l IH]; intros [|j] H; cbn in H; try discriminate; [injection H as ->; reflexivity|].
  destruct x; cbn [grids_of]; [|reflexivity]. now rewrite (IH j H).
Qed.

Lemma program_blocks g groups : transition_program num int gm result other areas pvmerge interp o (Z.of_nat ax) bu arg (program_of first segs) = Ok (g, groups) ->
  numbered groups /\ exists bs lines nsubs, joined pvmerge bs g /\ Forall2 (run_lines interp ax bu) ((pts, first) :: rs) lines /\
    S (length bs) = length (concat lines) /\ length nsubs = length bs /\
    forall j mk call la lb, nth_error (marks ((pts, first) :: rs)) (S j) = Some (mk, call) ->
      nth_error (concat lines) j = Some la -> nth_error (concat lines) (S j) = Some lb ->
      exists ns blk, nth_error nsubs j = Some ns /\ nth_error bs j = Some blk /\
        (mk = true -> ns = 1 /\ exists pts tris cd, blk = BTri pts tris cd /\ mesh_between gm result la lb pts tris /\
           cells_named num groups (default_group o) call (length tris) cd /\
           uniform_ids num "StackItem" (length tris) (-1) (Z.of_nat (list_sum (firstn j nsubs))) (Z.of_nat j) cd) /\
        (mk = false -> exists s, blk = BGrid s /\ strip_between ax call la lb ns s /\
           cells_named num groups (default_group o) call (ns * (length la - 1)) (sg_cd s) /\
           (1 <= ax -> line_block_ids num "StackItem" ax ns (length la - 1) (list_sum (firstn j nsubs)) j s)).
Proof.
  destruct program_items as (m0 & its0 & mis & Hf & HR & HM & Et). unfold transition_program. rewrite Et. cbn [bind]. intros H.
  destruct (stack2d_generate _ _ _ _ _ _ _ _ _) as [[[[g' groups'] n] js]|] eqn:E; [|discriminate]. cbn [bind] in H. injection H as -> ->.
  destruct (items_flat m0 its0 mis Hf HR HM) as (i1 & r1 & Ei & _).
  apply stack2d_trans_inv in E as (i1' & rest & j1 & rest' & bs & Ei' & _ & -> & Hc & Hg & Hm).
  rewrite Ei in Ei'. cbn [app] in Ei'. injection Ei' as <- <-.
  destruct (pieces m0 its0 mis i1 r1 j1 rest' bs groups n Hf HR HM Ei Hc Hg) as (_ & Hn & (j & p & t & cd & Hj) & lines & nsubs & HL & L1 & L2 & HB).
  split; [exact Hn|]. exists bs, lines, nsubs. split; [|split; [exact HL|]; split; [exact L1|]; split; [exact L2|]].
  2:{ intros j' mk call la lb M1 M2 M3. destruct (HB j' mk call la lb M1 M2 M3) as (ns & blk & B1 & B2 & _ & B3). exists ns, blk. auto. }
  unfold merge_blocks in Hm. unfold joined. destruct bs as [|b0 [|b1 bs]]; [discriminate|congruence|].
  now rewrite (grids_not _ _ _ _ _ Hj) in Hm.
Qed.
End Program.
