From Verif Require Import Lines_spec Lines1_proof RealAux Perc_model Perc_spec Perc_proof Surface_model Surface_spec Surface_proof
  Volume_model Volume_spec Volume_proof SMerge_model SMerge_spec SMerge_proof
  Groups_model Groups_spec Groups_proof Groups2_proof Polygon_model
  Stack_model Stack_spec Gen_proof Stack_proof Stack2_proof Stack3_proof Stack6_proof Stack7_proof
  Final_model Final_spec Final1_proof Trans_model Trans_spec Trans1_proof Trans2_proof Trans3_proof Trans5_proof Trans6_proof
  Line_spec Line3_proof Settle_spec Settle_proof Input_model Input1_proof
  Pile_model Pile_spec Pile_proof Pile3_model Pile3_spec Pile3_proof Pile4_model Pile4_spec.
From Verif Require Lines_model Objects_spec Objects3_proof Polygon_spec.
From Coq Require Import Lra Ascii.
Import Lines_model(lmesh, l_pts, l_cells, l_pd, l_cd, mkL, segments, split_lines, at_res).
Open Scope nat_scope.

(* ---- the base line set by a transition ---- *)
Lemma next_made {D} (int : D -> Z) other pts (a : Z + lmesh pt D) pts' n : pts <> [] -> next_points pts a pts' -> length pts' = S (S n) ->
  exists line, new_line other (mkL pts [] [] []) a = Ok line /\ ln_pts (lb_line (line_base int line)) = pts' /\
    ln_ids (lb_line (line_base int line)) = seq 0 (S (S n)) /\ Line_spec.wf_line (S n) (line_base int line).
Proof.
  intros Hne Hp L.
  assert (HX : exists m : lmesh pt D, new_line other (mkL pts [] [] []) a = transition_line m /\ base_ok (inr m) /\ base_points 2 (inr m) pts').
  { destruct a as [k|m]; cbn [next_points new_line l_pts] in *.
    - destruct Hp as (k' & Ek & L' & HA).
      destruct (Objects3_proof.regular_ok other pts (Some k) k' Hne Ek) as (q & E & Lq & Hq).
      assert (q = pts') as ->.
      { apply nth_error_ext. intros i. destruct (nth_error q i) as [P|] eqn:EP.
        - destruct (nth_error pts' i) as [Q|] eqn:EQ.
          + f_equal. exact (Objects3_proof.along_fun _ _ _ (Hq i P EP) _ _ (HA i Q EQ) eq_refl).
          + apply nth_error_None in EQ. assert (i < length q) by (apply nth_error_Some; congruence). lia.
        - apply nth_error_None in EP. symmetry. apply nth_error_None. lia. }
      exists (mkL pts' [seq 0 (length pts')] [] []). rewrite E. split; [reflexivity|]. split.
      + split; [|constructor]. split; [|split; [intros ? ? []|intros ? ? []]].
        intros ids [<-|[]] i Hi. apply in_seq in Hi. cbn. lia.
      + exists (seq 0 (length pts')), []. split; [reflexivity|].
        apply Forall2_nth_intro; [apply seq_length|]. intros i v x Hv Hx. cbn [l_pts].
        assert (i < length pts') by (apply nth_error_Some; congruence).
        rewrite (nth_error_nth' _ 0) in Hv by (rewrite seq_length; assumption). rewrite seq_nth in Hv by assumption. injection Hv as <-. exact Hx.
    - exists m. destruct Hp as [W H]. auto. }
  destruct HX as (m & E & Hok & Hb).
  destruct (base_made int 2 (inr m) pts' n ltac:(lia) Hok Hb L) as (line & E1 & E2 & E3 & E4 & _).
  exists line. split; [|auto]. rewrite E. cbn [stack2d_line] in E1. destruct Hb as (ids & rest & Ec & _).
  destruct (base_line_defined m (proj1 Hok) ltac:(congruence)) as (l & B1 & B2). congruence.
Qed.

Section Runs.
Context {D : Type} (num : Z -> D) (int : D -> Z) (other : list R -> list R -> list R -> list R).
Context (ax : nat) (Hax : ax <= 2) (bu : bool) (interp : list pt -> list pt -> res (list R)).
Notation ops := (tops num).

Definition open_item (m : lbase D) (c : st_call) (zs : list R) : item (lbase D) :=
  mkItem (placed ops ax m zs) (ao_res (sc_opts c)) (ao_method (sc_opts c)) (ao_prio (sc_opts c)) (ao_thick (sc_opts c)) (ao_group (sc_opts c)) true.

(* the items made by the calls of a run *)
Definition run_items (first : bool) (m : lbase D) (calls : list st_call) (its : list (item (lbase D))) : Prop :=
  if first then made ops ax bu interp m true None calls its
  else exists c rest zs its', calls = c :: rest /\ its = open_item m c zs :: its' /\ length zs = length (getp ops m) /\
    (forall i, i < length zs -> exists z, nth_error zs i = Some z /\ raised interp bu (getp ops m) i None (sc_arg c) z) /\
    made ops ax bu interp m false (Some zs) rest its'.

Lemma open_ok st c (m : lbase D) : st_base st = m -> st_flag st = true -> st_items st <> [] -> accepted interp (getp ops m) c ->
  match sc_arg c with ArgScalar _ => False | _ => True end ->
  exists zs, length zs = length (getp ops m) /\
    (forall i, i < length zs -> exists z, nth_error zs i = Some z /\ raised interp bu (getp ops m) i None (sc_arg c) z) /\
    stack_add ops ax bu interp st (sc_arg c) (sc_opts c) = Ok (mkStack m (st_items st ++ [open_item m c zs]) false).
Proof.
  intros Eb Ef Hne Ha Hs.
  assert (HI : forall zs, match st_items st with
    | [] => mkItem (placed ops ax m zs) ResNone None (ao_prio (sc_opts c)) 0%R GNone false
    | _ :: _ => mkItem (placed ops ax m zs) (ao_res (sc_opts c)) (ao_method (sc_opts c)) (ao_prio (sc_opts c)) (ao_thick (sc_opts c)) (ao_group (sc_opts c)) (st_flag st)
    end = open_item m c zs).
  { intros zs. rewrite Ef. destruct (st_items st); [congruence|reflexivity]. }
  unfold accepted in Ha. unfold stack_add. rewrite Eb. destruct (sc_arg c) as [x|fn|ndim ncols rows|pts] eqn:Ec.
  - destruct Hs.
  - exists (map (fun '(x, y, z) => fn x y z) (getp ops m)). split; [apply map_length|]. split.
    + intros i Hi. rewrite map_length in Hi. destruct (nth_error (getp ops m) i) as [[[x y] z]|] eqn:E; [|apply nth_error_None in E; lia].
      exists (fn x y z). split; [rewrite nth_error_map, E; reflexivity|]. now constructor.
    + cbn [bind]. fold (placed ops ax m (map (fun '(x, y, z) => fn x y z) (getp ops m))). now rewrite HI.
  - destruct Ha as (-> & -> & zs & Hz & L). exists zs. split; [exact L|]. split.
    + intros i Hi. destruct (nth_error zs i) as [z|] eqn:E; [|apply nth_error_None in E; lia]. exists z. split; [reflexivity|].
      now apply raised_array with zs.
    + cbn [Nat.eqb]. rewrite Hz. cbn [bind]. fold (placed ops ax m zs). now rewrite HI.
  - destruct Ha as (zs & Hz & L). exists zs. split; [exact L|]. split.
    + intros i Hi. destruct (nth_error zs i) as [z|] eqn:E; [|apply nth_error_None in E; lia]. exists z. split; [reflexivity|].
      now apply raised_mesh with zs.
    + rewrite Hz. cbn [bind]. fold (placed ops ax m zs). now rewrite HI.
Qed.

Notation calls_of := (tr_calls num int other ax bu interp).

Lemma tr_calls_app l l' st : calls_of st (l ++ l') = let! st' := calls_of st l in calls_of st' l'.
Proof.
  revert st. induction l as [|c l IH]; intros st; [reflexivity|]. cbn [app tr_calls].
  destruct (tr_step _ _ _ _ _ _ _ _); cbn [bind]; [apply IH|reflexivity].
Qed.

Lemma tr_calls_add l st : calls_of st (map TrAdd l) = stack_calls ops ax bu interp st l.
Proof.
  revert st. induction l as [|c l IH]; intros st; [reflexivity|]. cbn [map tr_calls stack_calls tr_step].
  destruct (stack_add _ _ _ _ _ _ _); cbn [bind]; [apply IH|reflexivity].
Qed.

Lemma first_made (m : lbase D) calls : Forall (accepted interp (getp ops m)) calls ->
  exists its, run_items true m calls its /\ calls_of (mkStack m [] false) (map TrAdd calls) = Ok (mkStack m its false).
Proof.
  intros Hacc.
  destruct (calls_made ops (tops_lawful num) ax bu interp m calls (mkStack m [] false) None true eq_refl eq_refl Hacc) as (its & H1 & H2).
  { left. auto. }
  exists its. rewrite tr_calls_add. split; [exact H1|exact H2].
Qed.

Lemma next_run (m : lbase D) calls st : st_base st = m -> st_flag st = true -> st_items st <> [] -> opening calls ->
  Forall (accepted interp (getp ops m)) calls ->
  exists its, run_items false m calls its /\ calls_of st (map TrAdd calls) = Ok (mkStack m (st_items st ++ its) false).
Proof.
  intros Eb Ef Hne Ho Hacc. destruct calls as [|c rest]; [destruct Ho|]. destruct Ho as [Ho _].
  inversion Hacc as [|? ? Ha Hacc']; subst.
  destruct (open_ok st c (st_base st) eq_refl Ef Hne Ha Ho) as (zs & L & HR & E).
  destruct (calls_made ops (tops_lawful num) ax bu interp (st_base st) rest (mkStack (st_base st) (st_items st ++ [open_item (st_base st) c zs]) false)
              (Some zs) false eq_refl eq_refl Hacc') as (its & H1 & H2).
  { right. split; [reflexivity|]. exists (st_items st), (open_item (st_base st) c zs), zs. cbn [st_items]. repeat (split; [now auto|]). reflexivity. }
  exists (open_item (st_base st) c zs :: its). split.
  - exists c, rest, zs, its. auto.
  - rewrite tr_calls_add. cbn [stack_calls]. rewrite E. cbn [bind]. rewrite H2. cbn [st_items]. now rewrite <- app_assoc.
Qed.

(* the base line of a run *)
Definition fits (base : list pt) (m : lbase D) : Prop :=
  exists n, length base = S (S n) /\ ln_pts (lb_line m) = base /\ ln_ids (lb_line m) = seq 0 (S (S n)) /\ Line_spec.wf_line (S n) m /\ lb_labels m = None.

Lemma runs_made pts segs rs : runs interp pts segs rs -> forall st, ln_pts (lb_line (st_base st)) = pts -> pts <> [] -> st_items st <> [] -> st_flag st = false ->
  exists mis m', Forall2 (fun r mi => fits (fst r) (fst mi) /\ run_items false (fst mi) (snd r) (snd mi)) rs mis /\
    calls_of st (flat_map (fun s => TrSet (fst s) :: map TrAdd (snd s)) segs) = Ok (mkStack m' (st_items st ++ concat (map snd mis)) false).
Proof.
  induction 1 as [pts|pts a calls rest pts' rs Hn (L2 & Hne' & Hacc & Hreg) Ho Hr IH]; intros st Ep Hne Hi Hf.
  - exists [], (st_base st). split; [constructor|]. cbn. rewrite app_nil_r. destruct st; cbn in *; subst. reflexivity.
  - destruct (length pts') as [|[|n]] eqn:L; try lia.
    destruct (next_made int other pts a pts' n Hne Hn L) as (line & E1 & E2 & E3 & E4).
    set (st1 := set_transition (line_base int line) st).
    destruct (next_run (line_base int line) calls st1 eq_refl eq_refl Hi Ho) as (its & HR & HC).
    { change (getp ops (line_base int line)) with (ln_pts (lb_line (line_base int line))). rewrite E2. exact Hacc. }
    destruct (IH (mkStack (line_base int line) (st_items st1 ++ its) false)) as (mis & m' & HF & HK); auto.
    { destruct pts'; [discriminate|congruence]. }
    { cbn [st_items]. intros E. apply app_eq_nil in E as [E _]. exact (Hi E). }
    exists ((line_base int line, its) :: mis), m'. split.
    + constructor; [|exact HF]. cbn [fst snd]. split; [|exact HR]. exists n. repeat (split; [auto; fail|]). reflexivity.
    + cbn [flat_map fst snd app tr_calls tr_step]. rewrite Ep, E1. cbn [bind]. fold st1.
      rewrite tr_calls_app, HC. cbn [bind]. rewrite HK. cbn [st_items map concat snd]. rewrite app_assoc. reflexivity.
Qed.

Definition marked (calls : list st_call) : list (bool * st_call) := match calls with c :: cs => (true, c) :: map (pair false) cs | [] => [] end.

(* what is known of the items of a run *)
Definition fit_item (first : bool) (base : list pt) (m : lbase D) (mc : bool * st_call) (it : item (lbase D)) : Prop :=
  (exists zs, length zs = length base /\ it_mesh it = placed ops ax m zs) /\ it_trans it = (fst mc && negb first)%bool /\
  ((fst mc && first)%bool = false -> it_res it = ao_res (sc_opts (snd mc)) /\ it_method it = ao_method (sc_opts (snd mc)) /\ it_group it = ao_group (sc_opts (snd mc))).

Lemma made_fits first base (m : lbase D) prev calls its : getp ops m = base -> made ops ax bu interp m false prev calls its ->
  Forall2 (fit_item first base m) (map (pair false) calls) its.
Proof.
  intros Eg HM. remember false as f eqn:Ef. induction HM as [f prev|f prev c zs rest its L HR HM IH]; [constructor|].
  cbn [map]. subst f. constructor; [|now apply IH]. split; [exists zs; split; [congruence|reflexivity]|]. split; [reflexivity|]. intros _. auto.
Qed.

Lemma run_fits first base (m : lbase D) calls its : fits base m -> run_items first m calls its -> Forall2 (fit_item first base m) (marked calls) its.
Proof.
  intros (n & _ & Eb & _) HR. change (getp ops m = base) in Eb. destruct first; cbn [run_items] in HR.
  - inversion HR as [|f prev c zs rest its' L Hr HM]; subst; [constructor|]. cbn [marked]. constructor; [|now apply made_fits with (Some zs)].
    split; [exists zs; split; [congruence|reflexivity]|]. split; [reflexivity|]. discriminate.
  - destruct HR as (c & rest & zs & its' & -> & -> & L & Hr & HM). cbn [marked]. constructor; [|now apply made_fits with (Some zs)].
    split; [exists zs; split; [congruence|reflexivity]|]. split; [reflexivity|]. intros _. auto.
Qed.

Lemma run_head first (m : lbase D) calls its : calls <> [] -> run_items first m calls its ->
  exists i1 rest, its = i1 :: rest /\ it_trans i1 = negb first /\ Forall (fun i => it_trans i = false) rest.
Proof.
  intros Hne HR.
  assert (HM : forall prev l its, made ops ax bu interp m false prev l its -> Forall (fun i => it_trans i = false) its).
  { intros prev l its0 H. remember false as f eqn:Ef. induction H as [f prev|f prev c zs rest its' L Hr HM IH]; [constructor|]. subst f. constructor; [reflexivity|now apply IH]. }
  destruct first; cbn [run_items] in HR.
  - inversion HR as [|f prev c zs rest its' L Hr HM']; subst; [congruence|]. eexists _, _. split; [reflexivity|]. split; [reflexivity|]. eapply HM; exact HM'.
  - destruct HR as (c & rest & zs & its' & -> & -> & L & Hr & HM'). eexists _, _. split; [reflexivity|]. split; [reflexivity|]. eapply HM; exact HM'.
Qed.

Lemma settles_first p t t' z ls out : settles bu ((p, t, z) :: ls) out -> settles bu ((p, t', z) :: ls) out.
Proof. destruct bu; intros H; inversion H; subst; constructor; assumption. Qed.

(* the elevations of the items of a run before the cut; the thickness of the first one is not used *)
Lemma run_levels first base (m : lbase D) calls its i : fits base m -> run_items first m calls its -> i < length base ->
  exists ls, heights interp bu base i None calls ls /\
    forall js, (match its with i1 :: rest => cut_loop ops ax bu i1 rest = Ok js | [] => False end) ->
      exists out, settles bu ls out /\ Forall2 (elevation ops ax i) js out.
Proof.
  intros Hf HR Hi. destruct Hf as (n & Ln & Eb & _). change (getp ops m = base) in Eb.
  assert (Hi' : i < length (getp ops m)) by now rewrite Eb. destruct first; cbn [run_items] in HR.
  - destruct (made_levels ops (tops_lawful num) ax bu interp m Hax true None calls its HR ltac:(split; auto) ltac:(discriminate) i Hi') as (ls & Hls & Hlv).
    rewrite Eb in Hls. exists ls. split; [exact Hls|]. intros js Hc. destruct its as [|i1 rest]; [destruct Hc|].
    assert (Ht : Forall (fun i => it_trans i = false) rest).
    { destruct (run_head true m calls (i1 :: rest)) as (j1 & r & E & _ & H); [|exact HR|injection E as -> ->; exact H].
      intros ->. inversion HR. }
    exact (proj2 (loop_levels ops (tops_lawful num) ax Hax bu rest i1 js Ht Hc) i ls Hlv).
  - pose proof HR as HR0. destruct HR as (c & rest & zs & its' & -> & -> & L & Hr & HM).
    destruct (Hr i ltac:(lia)) as (z & Ez & Hz).
    destruct (made_levels ops (tops_lawful num) ax bu interp m Hax false (Some zs) rest its' HM ltac:(split; discriminate)
                ltac:(intros l E; injection E as <-; exact L) i Hi') as (ls & Hls & Hlv).
    rewrite Eb in Hls, Hz. rewrite Ez in Hls.
    exists ((ao_prio (sc_opts c), 0%R, z) :: ls). split; [exact (heights_cons _ _ _ _ None c z rest ls Hz Hls)|].
    intros js Hc. cbn in Hc.
    destruct (run_head false m (c :: rest) (open_item m c zs :: its') ltac:(discriminate) HR0) as (j1 & r & E & _ & Ht). injection E as <- <-.
    destruct (proj2 (loop_levels ops (tops_lawful num) ax Hax bu its' _ js Ht Hc) i ((ao_prio (sc_opts c), ao_thick (sc_opts c), z) :: ls)) as (out & Ho & He).
    + constructor; [|exact Hlv]. cbn [fst snd]. split; [reflexivity|]. split; [reflexivity|].
      destruct (placed_get ops (tops_lawful num) ax m zs i z L Ez) as (p & Hp & _). exists (pset ax z p). split; [exact Hp|]. now apply coord_pset.
    + exists out. split; [|exact He]. exact (settles_first _ _ _ _ _ _ Ho).
Qed.

Lemma tplaced_column base (m : lbase D) zs i q : fits base m -> length zs = length base ->
  nth_error (getp ops (placed ops ax m zs)) i = Some q -> exists p, nth_error base i = Some p /\ same_column ax p q.
Proof.
  intros (n & _ & Eb & _) L E. change (getp ops m = base) in Eb. destruct (nth_error zs i) as [z|] eqn:Ez.
  - destruct (placed_get ops (tops_lawful num) ax m zs i z ltac:(now rewrite Eb) Ez) as (p & H1 & H2).
    rewrite E in H1. injection H1 as ->. rewrite Eb in H2.
    exists p. split; [exact H2|]. destruct p as [[x y] w]. intros a Ha Hne. destruct ax as [|[|[|]]], a as [|[|[|]]]; cbn; try lia; reflexivity.
  - exfalso. apply nth_error_None in Ez. unfold placed in E. rewrite (proj1 (tops_lawful num)) in E.
    assert (i < length (map2 (fun v p => pset ax v p) zs (getp ops m))) by (apply nth_error_Some; congruence).
    rewrite map2_length in *. lia.
Qed.

Lemma marked_length calls : length (marked calls) = length calls.
Proof. destruct calls; cbn; [reflexivity|]. now rewrite map_length. Qed.

Lemma Forall2_nth_r {A B} (P : A -> B -> Prop) l l' : Forall2 P l l' -> forall i y, nth_error l' i = Some y -> exists x, nth_error l i = Some x /\ P x y.
Proof.
  induction 1 as [|x y l l' H _ IH]; intros [|i] z E; cbn in E; try discriminate; [injection E as <-; exists x; auto|exact (IH i z E)].
Qed.

(* the lines of a run after the cut *)
Lemma run_cut first base (m : lbase D) calls its js : fits base m -> calls <> [] -> run_items first m calls its ->
  (match its with i1 :: rest => cut_loop ops ax bu i1 rest = Ok js | [] => False end) ->
  run_lines interp ax bu (base, calls) (map (points ops) js) /\ Forall2 (only_points ops) its js /\
  Forall (fun j => length (points ops j) = length base) js.
Proof.
  intros Hf Hne HR Hc. pose proof (run_fits first base m calls its Hf HR) as HF.
  destruct (run_head first m calls its Hne HR) as (i1 & rest & -> & _ & Ht).
  destruct (loop_levels ops (tops_lawful num) ax Hax bu rest i1 js Ht Hc) as [HV _].
  assert (HO : Forall2 (only_points ops) (i1 :: rest) js) by (clear -HV; induction HV as [|? ? ? ? [? _] ? ?]; constructor; auto).
  assert (HB : Forall (fun j => length (points ops j) = length base) js).
  { apply Forall_forall. intros b Hb. apply In_nth_error in Hb as [j Hj]. destruct (Forall2_nth_r _ _ _ HV j b Hj) as (it & Ei & _ & HC).
    destruct (Forall2_nth_r _ _ _ HF j it Ei) as (mc & _ & (zs & Lz & Em) & _).
    rewrite <- (Forall2_len _ _ _ HC). unfold points. rewrite Em. unfold placed. rewrite (proj1 (tops_lawful num)), map2_length.
    destruct Hf as (n & _ & Eb & _). change (getp ops m = base) in Eb. rewrite Eb, Lz. lia. }
  split; [|auto]. split; [|split].
  - rewrite map_length. cbn [snd]. rewrite <- (Forall2_len _ _ _ HV), <- (Forall2_len _ _ _ HF). apply marked_length.
  - apply Forall_forall. intros l Hl. apply in_map_iff in Hl as (j & <- & Hj). rewrite Forall_forall in HB. now apply HB.
  - cbn [fst snd]. intros i p Hp. assert (Hi : i < length base) by (apply nth_error_Some; congruence).
    destruct (run_levels first base m calls (i1 :: rest) i Hf HR Hi) as (ls & Hls & HS). destruct (HS js Hc) as (out & Ho & He).
    exists out. split.
    { exists ls. split; [exact Hls|]. split; [destruct bu; exact Ho|].
      rewrite <- (Forall2_len _ _ _ He), <- (Forall2_len _ _ _ HV), <- (Forall2_len _ _ _ HF). apply marked_length. }
    intros j l h Hl Hh. rewrite nth_error_map in Hl. destruct (nth_error js j) as [b|] eqn:Eb; [|discriminate]. injection Hl as <-.
    destruct (Forall2_nth_l _ _ _ He j b Eb) as (h2 & Hh2 & q & Hq & Hz). rewrite Hh in Hh2. injection Hh2 as <-.
    destruct (Forall2_nth_r _ _ _ HV j b Eb) as (it & Ei & _ & HC).
    destruct (Forall2_nth_r _ _ _ HF j it Ei) as (mc & _ & (zs & Lz & Em) & _).
    destruct (Forall2_nth_r _ _ _ HC i q Hq) as (q0 & Hq0 & Hcol). unfold points in Hq0. rewrite Em in Hq0.
    destruct (tplaced_column base m zs i q0 Hf Lz Hq0) as (p' & Hp' & Hcol'). rewrite Hp in Hp'. injection Hp' as <-.
    transitivity (Some q); [exact Hq|]. f_equal. apply (column_height' ax Hax); [|exact Hz]. intros a' G1 G2. rewrite (Hcol' a' G1 G2). exact (Hcol a' G1 G2).
Qed.

(* the cut of all the runs *)
Lemma cut_runs : forall iss i1 r1 js,
  Forall (fun its => match its with t :: _ => it_trans t = true | [] => False end) iss ->
  cut_loop ops ax bu i1 (r1 ++ concat iss) = Ok js ->
  exists j0 jss, js = j0 ++ concat jss /\ cut_loop ops ax bu i1 r1 = Ok j0 /\
    Forall2 (fun its js => match its with t :: r => cut_loop ops ax bu t r = Ok js | [] => False end) iss jss.
Proof.
  induction iss as [|its iss IH]; intros i1 r1 js HT E.
  - cbn in E. rewrite app_nil_r in E. exists js, []. cbn. rewrite app_nil_r. auto.
  - inversion HT as [|? ? Ht HT']; subst. destruct its as [|t r]; [destruct Ht|]. cbn [concat app] in E.
    rewrite (cut_split ops ax bu t (r ++ concat iss) r1 i1 Ht) in E.
    destruct (cut_loop ops ax bu i1 r1) as [a|] eqn:Ea; [|discriminate]. cbn [bind] in E.
    destruct (cut_loop ops ax bu t (r ++ concat iss)) as [b|] eqn:Eb; [|discriminate]. cbn [bind] in E. injection E as <-.
    destruct (IH t r b HT' Eb) as (j0 & jss & -> & E0 & HF).
    exists a, (j0 :: jss). split; [reflexivity|]. split; [reflexivity|]. constructor; [exact E0|exact HF].
Qed.
End Runs.
