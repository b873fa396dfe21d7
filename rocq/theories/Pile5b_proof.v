From Verif Require Import Lines_spec Lines1_proof RealAux Perc_model Perc_spec Perc_proof Surface_model Surface_spec Surface_proof
  Volume_model Volume_spec Volume_proof SMerge_model SMerge_spec SMerge_proof
  Groups_model Groups_spec Groups_proof Groups2_proof Polygon_model
  Stack_model Stack_spec Gen_proof Stack_proof Stack2_proof Stack3_proof Stack4_proof Stack6_proof Stack7_proof
  Final_model Final_spec Final1_proof Trans_model Trans_spec Trans1_proof Trans2_proof Trans3_proof Trans5_proof Trans6_proof
  Line_spec Line3_proof Settle_spec Settle_proof Input_model Input1_proof
  Unstr_model Unstr_spec Unstr1_proof Unstr2_proof
  Pile_model Pile_spec Pile_proof Pile3_model Pile3_spec Pile3_proof Pile4_model Pile4_spec Pile4_proof Pile4b_proof Pile4c_proof Pile5_model Pile5_spec.
From Verif Require Lines_model Polygon_spec Surface2_spec Surface2_proof.
From Verif Require Import MMerge_spec MMerge_proof Gather_proof Pile5_proof.
From Coq Require Import Lra Permutation.
Import Lines_model(lmesh, l_pts, l_cells, l_pd, l_cd, mkL).
Open Scope nat_scope.

Lemma marks_lines interp ax bu (rs : list (list pt * list st_call)) lines : Forall2 (run_lines interp ax bu) rs lines ->
  length (marks rs) = length (concat lines).
Proof.
  induction 1 as [|r l rs lines (L & _) _ IH]; [reflexivity|]. unfold marks. cbn [flat_map concat]. rewrite !app_length. fold (marks rs). rewrite IH, L.
  destruct (snd r); cbn; [reflexivity|]. now rewrite map_length.
Qed.

Lemma merge_with_tri {D} (pvmerge : list (uvol D) -> res (uvol D)) ax (bs : list (block D)) j p t cd : nth_error bs j = Some (BTri p t cd) ->
  merge_mixed pvmerge ax bs = let! g := merge_unstructured pvmerge (map cast_block bs) in Ok (inr g).
Proof.
  intros H. pose proof (grids_not bs j p t cd H) as HN. unfold merge_mixed, merge_unstructured.
  destruct bs as [|b [|b' bs]]; [destruct j; discriminate| |].
  - destruct b; [destruct j as [|[|]]; discriminate|reflexivity].
  - rewrite HN. destruct b; reflexivity.
Qed.

Section Assemble.
Context {D : Type} (num : Z -> D) (int : D -> Z) (Hint : forall z, int (num z) = z) (gm : gmsh) (result : list gop -> gmsh_mesh) (HG : gmsh_elements result).
Context (pvmerge : list (uvol D) -> res (uvol D)) (Hmerge : appends pvmerge) (tol : R) (clean : uvol D -> uvol D) (Hclean : cleans tol clean).
Context (interp : list pt -> list pt -> res (list R)) (default : string) (ax : nat) (Hax : ax <= 2).
Context (ms : list (bool * st_call)) (lines : list (list pt)) (nsubs : list nat) (bs : list (block D)) (groups : dict).
Context (Hn : numbered groups) (Lms : length ms = length lines) (Lb : S (length bs) = length lines) (Ln : length nsubs = length bs).
Context (HB : forall j mk call la lb, nth_error ms (S j) = Some (mk, call) -> nth_error lines j = Some la -> nth_error lines (S j) = Some lb ->
      exists ns blk, nth_error nsubs j = Some ns /\ nth_error bs j = Some blk /\
        block_facts num gm result ns (length la - 1) (list_sum (firstn j nsubs)) j blk /\
        (mk = true -> ns = 1 /\ exists pts tris cd, blk = BTri pts tris cd /\ mesh_between gm result la lb pts tris /\
           cells_named num groups default call (length tris) cd /\
           uniform_ids num "StackItem" (length tris) (-1) (Z.of_nat (list_sum (firstn j nsubs))) (Z.of_nat j) cd) /\
        (mk = false -> exists s, blk = BGrid s /\ strip_between ax call la lb ns s /\
           cells_named num groups default call (ns * (length la - 1)) (sg_cd s) /\
           (1 <= ax -> line_block_ids num "StackItem" ax ns (length la - 1) (list_sum (firstn j nsubs)) j s))).

Definition four : list string := ["ColumnId"; "LayerId"; "StackItem"; "CellGroup"]%string.

(* block j, once cast *)
Definition cast_facts (j : nat) (polys : list (list pt)) : Prop :=
  exists mk call la lb ns b,
    nth_error ms (S j) = Some (mk, call) /\ nth_error lines j = Some la /\ nth_error lines (S j) = Some lb /\ nth_error nsubs j = Some ns /\
    nth_error (map cast_block bs) j = Some b /\ sound b /\ pictures b polys /\ length (uv_types b) = length polys /\
    (mk = true -> ns = 1 /\ mesh_polygons gm result la lb polys /\ uv_ghost b = [] /\ forall k, In k (map fst (uv_cd b)) <-> In k four) /\
    (mk = false -> strip_polygons ax call la lb ns polys) /\
    (forall k, In k four -> In k (map fst (uv_cd b))) /\
    (exists arr, In ("CellGroup"%string, map num arr) (uv_cd b) /\ forall c, c < length polys -> exists k, named groups arr c k /\ call_name default call k) /\
    exists col lay itm, In ("ColumnId"%string, col) (uv_cd b) /\ In ("LayerId"%string, lay) (uv_cd b) /\ In ("StackItem"%string, itm) (uv_cd b) /\
      forall c, c < length polys -> nth_error itm c = Some (num (Z.of_nat j)) /\
        nth_error col c = Some (num (if mk then (-1)%Z else Z.of_nat (c mod (length la - 1)))) /\
        nth_error lay c = Some (num (Z.of_nat (list_sum (firstn j nsubs) + (if mk then 0 else c / (length la - 1))))).

Lemma key_of {X} (k : string) (v : X) (l : list (string * X)) : In (k, v) l -> In k (map fst l).
Proof. intros H. apply in_map_iff. exists (k, v). auto. Qed.

Lemma pictures_sound (b : uvol D) polys : pictures b polys -> (exists cs, cells_of b cs) /\ length (uv_types b) = length polys.
Proof. intros (cs & Hc & HF). split; [eauto|]. rewrite <- (Forall2_len _ _ _ HF). symmetry. exact (decode_length _ _ _ Hc). Qed.

Lemma cast_all j : j < length bs -> exists polys, cast_facts j polys.
Proof.
  intros Hj. destruct (nth_error ms (S j)) as [[mk call]|] eqn:Em; [|apply nth_error_None in Em; lia].
  destruct (nth_error lines j) as [la|] eqn:Ea; [|apply nth_error_None in Ea; lia].
  destruct (nth_error lines (S j)) as [lb|] eqn:Eb; [|apply nth_error_None in Eb; lia].
  destruct (HB j mk call la lb Em Ea Eb) as (ns & blk & B1 & B2 & BF & BT & BS). destruct mk.
  - destruct (BT eq_refl) as (-> & p & tris & cd & -> & HM & (cg & Hcg & Lcg & HNm) & (col & lay & itm & I1 & I2 & I3 & _ & _ & _ & HI)).
    destruct BF as (F1 & F2 & F3 & t & ring & cells & HP & ->). apply mesh_read in HP as (s & _ & Hs).
    destruct (cast_tri (D := D) result s p cells cd HG Hs) as (polys & P1 & P2 & P3). exists polys.
    assert (Lp : length polys = length (flat_map snd cells)) by (symmetry; exact (Forall2_len _ _ _ P1)).
    exists true, call, la, lb, 1, (cast_block (BTri p (flat_map snd cells) cd)).
    do 4 (split; [auto|]). split; [rewrite nth_error_map, B2; reflexivity|].
    split; [split; [exact (proj1 (pictures_sound _ _ P2))|split; [exact F1|intros k v Hv; rewrite P3; exact (F2 k v Hv)]]|].
    split; [exact P2|]. split; [congruence|]. split.
    { intros _. split; [reflexivity|]. split; [exists p, (flat_map snd cells); auto|]. split; [reflexivity|exact F3]. }
    split; [discriminate|]. split; [intros k Hk; apply F3, Hk|]. split.
    { exists cg. split; [exact Hcg|]. rewrite Lp. exact HNm. }
    exists col, lay, itm. split; [exact I1|]. split; [exact I2|]. split; [exact I3|]. intros c Hc. rewrite Lp in Hc. destruct (HI c Hc) as (X1 & X2 & X3).
    rewrite Nat.add_0_r. auto.
  - destruct (BS eq_refl) as (s & -> & HSt & (cg & Hcg & Lcg & HNm) & _). destruct BF as (F1 & F2 & F3 & F4 & F5).
    destruct (cast_strip ax call la lb ns s Hax HSt) as (polys & P1 & P2 & P3). exists polys.
    destruct (pictures_sound _ _ P2) as [P4 P5]. assert (Lp : length polys = ns * (length la - 1)) by congruence.
    exists false, call, la, lb, ns, (cast_block (BGrid s)).
    do 4 (split; [auto|]). split; [rewrite nth_error_map, B2; reflexivity|].
    split; [split; [exact P4|split; [exact F1|intros k v Hv; rewrite P3; exact (F2 k v Hv)]]|].
    split; [exact P2|]. split; [exact P5|]. split; [discriminate|]. split; [intros _; exact P1|].
    split; [intros k [<-|[<-|[<-|[<-|[]]]]]; [exact (key_of _ _ _ F3)|exact (key_of _ _ _ F4)|exact (key_of _ _ _ F5)|exact (key_of _ _ _ Hcg)]|].
    split; [exists cg; split; [exact Hcg|]; rewrite Lp; exact HNm|].
    do 3 eexists. split; [exact F3|]. split; [exact F4|]. split; [exact F5|]. intros c Hc. rewrite Lp in Hc.
    set (n := length la - 1) in *. assert (n <> 0) by nia. rewrite !nth_error_map. split; [rewrite nth_error_repeat by exact Hc; reflexivity|].
    assert (Ec : c = c / n * n + c mod n) by (rewrite (Nat.div_mod c n) at 1 by auto; lia). assert (Hm : c mod n < n) by (apply Nat.mod_upper_bound; auto).
    assert (Hd : c / n < ns) by (apply Nat.div_lt_upper_bound; nia). split.
    + rewrite Surface2_proof.tile_mod by (rewrite map_length, seq_length; lia). rewrite map_length, seq_length, nth_error_map, nth_error_seq_lt by exact Hm. reflexivity.
    + rewrite Ec at 1. rewrite repeat_each_nth_error by exact Hm. rewrite nth_error_map, nth_error_seq_lt by exact Hd. reflexivity.
Qed.

Context (Hbt : exists j pts tris cd, nth_error bs j = Some (BTri pts tris cd)).

(* what the merged mesh is *)
Definition mesh_facts (blocks : list (list (list pt))) (place : list (nat * nat)) (g : uvol D) (labels : dict) : Prop :=
  length blocks = length bs /\
  (forall j mk call la lb, nth_error ms (S j) = Some (mk, call) -> nth_error lines j = Some la -> nth_error lines (S j) = Some lb ->
     exists polys ns, nth_error blocks j = Some polys /\ nth_error nsubs j = Some ns /\
       (mk = true -> ns = 1 /\ mesh_polygons gm result la lb polys) /\ (mk = false -> strip_polygons ax call la lb ns polys)) /\
  spread blocks place /\ polygons_shown tol blocks place g /\ calls_name int default ms place g labels /\
  cells_numbered num ms lines nsubs place g /\
  NoDup (map fst (uv_cd g)) /\ (forall k, In k (map fst (uv_cd g)) <-> In k four) /\
  ((exists j call polys, nth_error ms (S j) = Some (true, call) /\ nth_error blocks j = Some polys /\ polys <> []) -> uv_ghost g = []).

Lemma assembled g0 : merge_mixed pvmerge ax bs = Ok g0 ->
  exists g labels blocks place, finish_mixed num int clean g0 groups = Ok (inr g, labels) /\ mesh_facts blocks place g labels.
Proof.
  destruct Hbt as (jt & pt0 & tt0 & cdt & Hjt). rewrite (merge_with_tri _ _ _ _ _ _ _ Hjt).
  destruct (merge_unstructured _ _) as [u|] eqn:Eu; [|discriminate]. cbn [bind]. intros [= <-].
  destruct (list_choice cast_facts (length bs) cast_all) as (blocks & Lbl & HF).
  set (us := map cast_block bs) in *. assert (Lus : length us = length bs) by apply map_length.
  assert (HFj : forall j b, nth_error us j = Some b -> exists polys, nth_error blocks j = Some polys /\ cast_facts j polys).
  { intros j b Hb. assert (j < length blocks) by (rewrite Lbl, <- Lus; apply nth_error_Some; congruence).
    destruct (nth_error blocks j) as [polys|] eqn:E; [eauto|apply nth_error_None in E; lia]. }
  assert (HSd : forall b, In b us -> sound b).
  { intros b Hb. apply In_nth_error in Hb as [j Hj]. destruct (HFj j b Hj) as (polys & _ & mk & call & la & lb & ns & b' & _ & _ & _ & _ & Hb' & S & _).
    unfold us in Hj. rewrite Hj in Hb'. injection Hb' as <-. exact S. }
  destruct (merged_appended pvmerge us u Hmerge (fun b Hb => proj1 (proj2 (HSd b Hb))) Eu) as (order & us' & HP & Hk & Happ).
  destruct (gathered_all us order us' u Hk HP Happ HSd) as (place & HGa & Hin & HCov).
  set (P := fun (j c : nat) (k : string) => forall mk call, nth_error ms (S j) = Some (mk, call) -> call_name default call k).
  destruct (gathered_finish num int Hint tol clean Hclean us us' place u groups P Hn HGa Hin HCov) as
    (g & labels & Hfin & (cells & Hc & Lc & Hcells) & Hnl & HNg & (cg & names & N1 & N2 & N3 & N4 & N5) & HKeys & HArr & HGhost).
  { intros j b Hb. destruct (HFj j b Hb) as (polys & _ & mk & call & la & lb & ns & b' & C1 & _ & _ & _ & Hb' & S & _ & Lt & _ & _ & _ & (arr & Ha & Hnm) & _).
    unfold us in Hb. rewrite Hb in Hb'. injection Hb' as <-. split; [exact (proj1 (proj2 S))|]. exists arr. split; [exact Ha|].
    intros c Hc. rewrite Lt in Hc. destruct (Hnm c Hc) as (k & K1 & K2). exists k. split; [exact K1|]. intros mk' call' E. rewrite C1 in E. injection E as <- <-. exact K2. }
  exists g, labels, blocks, place. cbn [finish_mixed]. rewrite Hfin. cbn [bind fst snd]. split; [reflexivity|].
  assert (HKall : forall k, In k (map fst (uv_cd g)) <-> In k four).
  { intros k. rewrite HKeys. split.
    - intros H. assert (Hjt' : nth_error us jt = Some (cast_block (BTri pt0 tt0 cdt))) by (unfold us; rewrite nth_error_map, Hjt; reflexivity).
      destruct (HFj jt _ Hjt') as (polys & _ & mk & call & la & lb & ns & b' & C1 & C2 & C3 & _ & Hb' & _ & _ & _ & CT & _).
      unfold us in Hjt'. rewrite Hjt' in Hb'. injection Hb' as <-. destruct mk.
      + destruct (CT eq_refl) as (_ & _ & _ & CK). apply CK, H. eapply nth_error_In; exact Hjt'.
      + destruct (HB jt false call la lb C1 C2 C3) as (ns' & blk & _ & B2 & _ & _ & BS). rewrite Hjt in B2. injection B2 as <-.
        destruct (BS eq_refl) as (s & E & _). discriminate.
    - intros H b Hb. apply In_nth_error in Hb as [j Hj]. destruct (HFj j b Hj) as (polys & _ & mk & call & la & lb & ns & b' & _ & _ & _ & _ & Hb' & _ & _ & _ & _ & _ & K & _).
      unfold us in Hj. rewrite Hj in Hb'. injection Hb' as <-. auto. }
  split; [exact Lbl|]. split.
  { intros j mk call la lb E1 E2 E3. assert (Hj : j < length blocks) by (rewrite Lbl; assert (S j < length ms) by (apply nth_error_Some; congruence); lia).
    destruct (nth_error blocks j) as [polys|] eqn:E; [|apply nth_error_None in E; lia].
    destruct (HF j polys E) as (mk' & call' & la' & lb' & ns & b & C1 & C2 & C3 & C4 & _ & _ & _ & _ & CT & CS & _).
    rewrite E1 in C1. injection C1 as <- <-. rewrite E2 in C2. injection C2 as <-. rewrite E3 in C3. injection C3 as <-.
    exists polys, ns. split; [reflexivity|]. split; [exact C4|]. split; [intros T; destruct (CT T) as (? & ? & _); auto|exact CS]. }
  split.
  { destruct HCov as [H1 H2]. split; [exact H1|]. intros j c. rewrite H2. split.
    - intros (b & Hb & Hc'). destruct (HFj j b Hb) as (polys & E & mk & call & la & lb & ns & b' & _ & _ & _ & _ & Hb' & _ & _ & Lt & _).
      unfold us in Hb. rewrite Hb in Hb'. injection Hb' as <-. exists polys. split; [exact E|congruence].
    - intros (polys & E & Hc'). destruct (HF j polys E) as (mk & call & la & lb & ns & b & _ & _ & _ & _ & Hb & _ & _ & Lt & _). exists b. split; [exact Hb|congruence]. }
  split.
  { exists cells. split; [exact Hc|]. split; [exact Lc|]. intros i j c ps poly Hi Hps Hpoly.
    destruct (Hcells i j c Hi) as (b & cs & cell & f & Hb & Hcs & Hcell & Hci & Hpt).
    destruct (HF j ps Hps) as (mk & call & la & lb & ns & b' & _ & _ & _ & _ & Hb' & _ & (cs' & Hcs' & HP2) & _).
    unfold us in Hb. rewrite Hb in Hb'. injection Hb' as <-. unfold cells_of in Hcs, Hcs'. rewrite Hcs in Hcs'. injection Hcs' as <-.
    destruct (Forall2_nth_l _ _ _ HP2 c cell Hcell) as (poly' & Hpoly' & ty & ids & -> & HSh & HV). rewrite Hpoly in Hpoly'. injection Hpoly' as <-.
    cbn [rename] in Hci. exists ty, (map f ids). split; [exact Hci|]. split; [unfold shape_of in HSh; now rewrite map_length|].
    cbn [vcell_ids] in Hpt. clear - HV Hpt. induction HV as [|v p ids poly Hv _ IH]; cbn [map]; constructor; [apply Hpt; [left; reflexivity|exact Hv]|].
    apply IH. intros v' p' Hv'. apply Hpt. right. exact Hv'. }
  split.
  { split; [exact Hnl|]. exists cg, names. split; [exact N1|]. split; [exact N2|]. split; [exact N3|]. split; [exact N4|].
    intros i j c mk call Hi Em. destruct (N5 i j c Hi) as (k & K1 & K2). exists k. split; [exact K1|]. exact (K2 mk call Em). }
  split.
  { assert (HI : forall k, In k four -> exists x, In (k, x) (uv_cd g)).
    { intros k Hk'. apply HKall in Hk'. apply in_map_iff in Hk' as ([k' x] & E & H). cbn in E. subst k'. eauto. }
    destruct (HI "ColumnId"%string ltac:(left; reflexivity)) as (col & Hcol). destruct (HI "LayerId"%string ltac:(right; left; reflexivity)) as (lay & Hlay).
    destruct (HI "StackItem"%string ltac:(right; right; left; reflexivity)) as (itm & Hitm).
    destruct (HArr _ _ Hcol) as [L1 A1]; [discriminate|]. destruct (HArr _ _ Hlay) as [L2 A2]; [discriminate|]. destruct (HArr _ _ Hitm) as [L3 A3]; [discriminate|].
    exists col, lay, itm. do 3 (split; [assumption|]). do 3 (split; [assumption|]). intros i j c mk call la Hi Em Ela.
    assert (Hc' : In (j, c) place) by (eapply nth_error_In; eauto). apply HCov in Hc' as (b & Hb & Hlt).
    destruct (HFj j b Hb) as (polys & E & mk' & call' & la' & lb & ns & b' & C1 & C2 & _ & _ & Hb' & S & _ & Lt & _ & _ & _ & _ & c1 & l1 & i1 & D1 & D2 & D3 & DD).
    rewrite Em in C1. injection C1 as <- <-. rewrite Ela in C2. injection C2 as <-.
    assert (Eb : b' = b) by (unfold us in Hb; congruence). subst b'. rewrite Lt in Hlt. destruct (DD c Hlt) as (X1 & X2 & X3).
    assert (HX : forall k x v, (forall i j c, nth_error place i = Some (j, c) -> exists b v, nth_error us j = Some b /\ In (k, v) (uv_cd b) /\ nth_error x i = nth_error v c) ->
      In (k, v) (uv_cd b) -> nth_error x i = nth_error v c).
    { intros k x v HA Hv. destruct (HA i j c Hi) as (b' & v' & Hb2 & Hv' & E2). rewrite Hb in Hb2. injection Hb2 as <-. rewrite E2.
      f_equal. exact (NoDup_fst_fun _ _ _ _ (proj1 (proj2 S)) Hv' Hv). }
    rewrite (HX _ _ _ A3 D3), (HX _ _ _ A1 D1), (HX _ _ _ A2 D2). auto. }
  split; [exact HNg|]. split; [exact HKall|].
  intros (j & call & polys & Em & Ep & Hne). apply HGhost. destruct (HF j polys Ep) as (mk & call' & la & lb & ns & b & C1 & _ & _ & _ & Hb & _ & _ & Lt & CT & _).
  rewrite Em in C1. injection C1 as <- <-. destruct (CT eq_refl) as (_ & _ & G & _). exists b. split; [eapply nth_error_In; exact Hb|].
  split; [|exact G]. intros E. rewrite E in Lt. destruct polys; [congruence|discriminate].
Qed.
End Assemble.

Section Program.
Context {D : Type} (num : Z -> D) (int : D -> Z) (Hint : forall z, int (num z) = z) (gm : gmsh) (result : list gop -> gmsh_mesh) (HG : gmsh_elements result) (other : list R -> list R -> list R -> list R).
Context (areas : shape3 -> list pt -> list R) (pvmerge : list (uvol D) -> res (uvol D)) (Hmerge : appends pvmerge) (tol : R) (clean : uvol D -> uvol D) (Hclean : cleans tol clean).
Context (interp : list pt -> list pt -> res (list R)) (o : options) (ax : nat) (Hax : ax <= 2) (bu : bool) (arg : list R + lmesh pt D) (pts : list pt).
Context (first : list st_call) (segs : list ((Z + lmesh pt D) * list st_call)) (rs : list (list pt * list st_call)).
Context (Hok : base_ok arg) (Hpts : base_points ax arg pts) (Hfirst : regular_run interp pts first) (Hruns : runs interp pts segs rs) (Hsegs : segs <> []).

Lemma mesh_program m labels :
  transition_mesh num int gm result other areas pvmerge clean interp o (Z.of_nat ax) bu arg (program_of first segs) = Ok (m, labels) ->
  exists g lines nsubs bs blocks place, m = inr g /\ Forall2 (run_lines interp ax bu) ((pts, first) :: rs) lines /\
    S (length bs) = length (concat lines) /\
    mesh_facts (D := D) num int gm result tol (default_group o) ax (marks ((pts, first) :: rs)) (concat lines) nsubs bs blocks place g labels.
Proof.
  destruct (program_items num int other interp ax Hax bu arg pts first segs rs Hok Hpts Hfirst Hruns) as (m0 & its0 & mis & Hf & HR & HM & Et).
  unfold transition_mesh. rewrite Et. cbn [bind].
  destruct (items_flat num interp ax Hax bu pts first segs rs Hfirst Hruns m0 its0 mis Hf HR HM) as (i1 & r1 & Ei & _). rewrite Ei. unfold mixed_generate. cbn [app].
  destruct (r1 ++ concat (map snd mis)) as [|i2 rest] eqn:Er; [discriminate|]. rewrite <- Er. clear i2 rest Er.
  destruct (cut_loop _ _ _ _ _) as [[|j1 rest']|] eqn:Hc; try discriminate. cbn [bind].
  destruct (gen_loop _ _ _ _ _ _ _ _ _ _) as [[[bs groups] n]|] eqn:Hg; [|discriminate]. cbn [bind].
  destruct (merge_mixed pvmerge ax bs) as [g0|] eqn:Em; [|discriminate]. cbn [bind]. intros Hfin.
  destruct (pieces num gm result areas interp o ax Hax bu pts first segs rs Hfirst Hruns Hsegs m0 its0 mis i1 r1 j1 rest' bs groups n Hf HR HM Ei Hc Hg)
    as (_ & Hn & Hbt & lines & nsubs & HL & L1 & L2 & HB).
  destruct (assembled num int Hint gm result HG pvmerge Hmerge tol clean Hclean (default_group o) ax Hax (marks ((pts, first) :: rs)) (concat lines) nsubs bs groups
    Hn (marks_lines _ _ _ _ _ HL) L1 L2 HB Hbt g0 Em) as (g & labels' & blocks & place & Hfin' & HF).
  rewrite Hfin' in Hfin. injection Hfin as <- <-. exists g, lines, nsubs, bs, blocks, place. auto.
Qed.

Lemma mesh_defined : gmsh_works gm result -> (forall x y bs, exists g, pvmerge (x :: y :: bs) = Ok g) ->
  exists g labels, transition_mesh num int gm result other areas pvmerge clean interp o (Z.of_nat ax) bu arg (program_of first segs) = Ok (inr g, labels).
Proof.
  intros Hw Hp.
  destruct (program_defined num int gm result other areas (fun _ => Ok (BTri [] [] [])) interp o ax Hax bu arg pts first segs rs Hok Hpts Hfirst Hruns Hsegs Hw (fun bs => ex_intro _ _ eq_refl)) as (gx & gr & E).
  destruct (program_items num int other interp ax Hax bu arg pts first segs rs Hok Hpts Hfirst Hruns) as (m0 & its0 & mis & Hf & HR & HM & Et).
  unfold transition_program in E. unfold transition_mesh. rewrite Et in *. cbn [bind] in *.
  destruct (stack2d_generate _ _ _ _ _ _ _ _ _) as [[[[g' groups'] n] js]|] eqn:Es; [|discriminate]. clear E.
  destruct (items_flat num interp ax Hax bu pts first segs rs Hfirst Hruns m0 its0 mis Hf HR HM) as (i1 & r1 & Ei & _).
  apply stack2d_trans_inv in Es as (i1' & rest & j1 & rest' & bs & Ei' & Hne & Ejs & Hc & Hg & _). subst js.
  rewrite Ei in Ei' |- *. cbn [app] in Ei' |- *. injection Ei' as <- <-. unfold mixed_generate.
  destruct (r1 ++ concat (map snd mis)) as [|i2 rest] eqn:Er; [congruence|]. rewrite <- Er in *. clear i2 rest Er. 
  destruct (pieces num gm result areas interp o ax Hax bu pts first segs rs Hfirst Hruns Hsegs m0 its0 mis i1 r1 j1 rest' bs groups' n Hf HR HM Ei) as (_ & Hn & Hbt & lines & nsubs & HL & L1 & L2 & HB); [assumption|exact Hg|].
  rewrite Hc. cbn [bind]. rewrite Hg. cbn [bind].
  assert (exists g0, merge_mixed pvmerge ax bs = Ok g0) as (g0 & Em).
  { destruct Hbt as (j & p & t & cd & Hj). rewrite (merge_with_tri _ _ _ _ _ _ _ Hj). unfold merge_unstructured.
    destruct (map cast_block bs) as [|b [|b' l]] eqn:Eb; [destruct bs; [destruct j|]; discriminate|cbn; eauto|].
    destruct (Hp b b' l) as (g & ->). cbn. eauto. }
  rewrite Em. cbn [bind].
  destruct (assembled num int Hint gm result HG pvmerge Hmerge tol clean Hclean (default_group o) ax Hax (marks ((pts, first) :: rs)) (concat lines) nsubs bs groups'
    Hn (marks_lines _ _ _ _ _ HL) L1 L2 HB Hbt g0 Em) as (g & labels' & blocks & place & Hfin' & HF). eauto.
Qed.
End Program.
